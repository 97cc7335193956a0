(** Codestream output is what was written, in order (C44). *)
From Verif Require Import Base BaseLemmas Be SinkModel.

(** ** Specification *)
(** The bytes an operation writes, most significant first. *)
Definition bytes_of (o : op) : list Z :=
  match o with
  | PutByte b => [b]
  | PutWord w => be16 w
  | PutDword w => be32 w
  | PutN l => l
  | _ => []
  end.
(** What the program sees: [w] is what has been written since the last clear,
    [f] whether it was delivered to a vector, [v] what the vector holds. *)
Fixpoint spec (w : list Z) (f : bool) (v : list (option Z)) (ops : list op) : list Z * list obs :=
  match ops with
  | [] => (w, [])
  | Clear :: ops => let '(r, es) := spec [] false v ops in (r, Nothing :: es)
  | FlushFile :: ops => let '(r, es) := spec w f v ops in (r, ToFile (map Some w) :: es)
  | FlushVector :: ops =>
    if f then let '(r, es) := spec w true v ops in (r, ToVector v false :: es)
    else let '(r, es) := spec w true (map Some w) ops in (r, ToVector (map Some w) true :: es)
  | o :: ops => let '(r, es) := spec (w ++ bytes_of o) f v ops in (r, Nothing :: es)
  end.
Definition op_ok (o : op) : Prop :=
  match o with
  | PutByte b => 0 <= b < 256
  | PutWord w => 0 <= w < 2 ^ 16
  | PutDword w => 0 <= w < 2 ^ 32
  | PutN l => zlen l < 2 ^ 32
  | Reserve n => 0 <= n < 2 ^ 64
  | _ => True
  end.
Definition total (ops : list op) : Z := fold_right Z.add 0 (map (fun o => zlen (bytes_of o)) ops).

(** ** Proof *)
Record J (w : list Z) (f : bool) (d : dst) : Prop := {
  j_pos : pos d = zlen w; j_cap : capacity d = zlen (buf d); j_data : ztake (zlen w) (buf d) = map Some w;
  j_fit : zlen w <= capacity d < 2 ^ 64; j_flag : is_flushed d = f }.

Lemma grow_ok fuel : forall c need, 0 < c < 2 ^ 64 -> need < 2 ^ 64 -> 2 ^ 64 <= c * 2 ^ Z.of_nat fuel ->
  exists r, grow fuel c need = Ret r /\ c <= r < 2 ^ 64 /\ need <= r.
Proof.
  induction fuel as [|fuel IH]; intros c need Hc Hn Hf; [cbn in Hf; lia|]. cbn [grow].
  destruct (Z.ltb_spec c need); [|exists c; split; [reflexivity|lia]].
  unfold SIZE_MAX. destruct (Z.ltb_spec ((2 ^ 64 - 1) / 2) c); [exists need; split; [reflexivity|lia]|].
  change ((2 ^ 64 - 1) / 2) with 9223372036854775807 in *. change (2 ^ 64) with 18446744073709551616 in *.
  rewrite wrap64_small by (unfold two64; lia). destruct (IH (c * 2) need) as (r & E & H'); [lia|lia| |exists r; split; [exact E|lia]].
  replace (Z.of_nat (S fuel)) with (Z.of_nat fuel + 1) in Hf by lia. rewrite Z.pow_add_r in Hf by lia. lia.
Qed.

Lemma ensure_ok w f d need : J w f d -> 0 <= need < 2 ^ 64 -> exists d', ensure_capacity d need = Ret d' /\ J w f d' /\ need <= capacity d'.
Proof.
  intros [P C D F Fl] Hn. unfold ensure_capacity. destruct (Z.leb_spec need (capacity d)); [exists d; split; [reflexivity|split; [constructor; auto|lia]]|].
  pose proof (zlen_nonneg w) as Nw.
  destruct (grow_ok 65 (if capacity d =? 0 then 1024 else capacity d) need) as (r & E & Hr & Hr').
  { destruct (Z.eqb_spec (capacity d) 0); lia. } { lia. }
  { change (2 ^ Z.of_nat 65) with (2 * 2 ^ 64). destruct (Z.eqb_spec (capacity d) 0); lia. }
  rewrite E. cbn [bind]. clear E.
  assert (capacity d <= r) as Hcr by (destruct (Z.eqb_spec (capacity d) 0); lia).
  assert (zlen (@repeat (option Z) None (Z.to_nat r)) = r) as Lr by (rewrite zlen_repeat; lia).
  generalize dependent (@repeat (option Z) None (Z.to_nat r)). intros nb Lr.
  destruct (Z.eqb_spec (pos d) 0) as [Z0|Z0].
  - cbn [bind]. eexists. split; [reflexivity|]. split; [|cbn; lia]. constructor; cbn; auto; try lia.
    assert (zlen w = 0) by lia. assert (w = []) by now apply zlen_0. subst w. rewrite ztake_0 by lia. reflexivity.
  - unfold mem_get. rewrite P in *. replace (zlen w <=? zlen (buf d)) with true by lia. cbn [bind]. rewrite D. unfold mem_put. rewrite zlen_map.
    replace ((0 <=? 0) && (0 + zlen w <=? zlen nb)) with true by lia. cbn [bind]. rewrite ztake_0 by lia. cbn [app]. eexists. split; [reflexivity|]. split; [|cbn; lia].
    constructor; cbn; auto; try lia.
    + rewrite zlen_app, zlen_map, zlen_zskip by lia. lia.
    + apply ztake_app. now rewrite zlen_map.
Qed.

Lemma put_ok w f d l n : J w f d -> n = zlen l -> zlen w + n < 2 ^ 64 -> exists d',
  (let* d := ensure_capacity d (wrap64 (pos d + n)) in let* m := mem_put (buf d) (pos d) (map Some l) in Ret (Dst m (capacity d) (wrap64 (pos d + n)) (is_flushed d))) = Ret d' /\ J (w ++ l) f d'.
Proof.
  intros Jd -> H. pose proof (zlen_nonneg w) as Nw. pose proof (zlen_nonneg l) as Nl. rewrite (j_pos w f d Jd). rewrite wrap64_small by (unfold two64; lia).
  destruct (ensure_ok w f d (zlen w + zlen l) Jd) as (d' & -> & J' & N); [lia|]. cbn [bind]. destruct J' as [P C D F Fl].
  unfold mem_put. rewrite zlen_map, P. replace ((0 <=? zlen w) && (zlen w + zlen l <=? zlen (buf d'))) with true by lia. cbn [bind].
  rewrite wrap64_small by (unfold two64; lia). eexists. split; [reflexivity|].
  constructor; cbn [pos buf capacity is_flushed].
  - now rewrite zlen_app.
  - rewrite D, !zlen_app, !zlen_map, zlen_zskip by lia. lia.
  - rewrite D, app_assoc, <- map_app. apply ztake_app. now rewrite zlen_map.
  - rewrite zlen_app. lia.
  - exact Fl.
Qed.
Lemma put_byte_ok w f d b : J w f d -> zlen w + 1 < 2 ^ 64 -> exists d', put_byte d b = Ret d' /\ J (w ++ [b]) f d'.
Proof. intros Jd H. apply (put_ok w f d [b] 1 Jd); [reflexivity|lia]. Qed.
Lemma put_word_ok w f d v : J w f d -> 0 <= v < 2 ^ 16 -> zlen w + 2 < 2 ^ 64 -> exists d', put_word d v = Ret d' /\ J (w ++ be16 v) f d'.
Proof.
  intros Jd Hv H. unfold put_word. destruct (put_byte_ok w f d (Z.shiftr v 8 mod 256) Jd) as (d1 & -> & J1); [lia|]. cbn [bind].
  destruct (put_byte_ok _ f d1 (Z.land v 255 mod 256) J1) as (d2 & -> & J2); [rewrite zlen_app; change (zlen [_]) with 1; lia|].
  exists d2. split; [reflexivity|]. rewrite <- app_assoc in J2. cbn [app] in J2. unfold be16.
  rewrite Z.shiftr_div_pow2, land_255 in J2 by lia. rewrite (Z.mod_mod v 256) in J2 by lia. exact J2.
Qed.
Lemma put_dword_ok w f d v : J w f d -> 0 <= v < 2 ^ 32 -> zlen w + 4 < 2 ^ 64 -> exists d', put_dword d v = Ret d' /\ J (w ++ be32 v) f d'.
Proof.
  intros Jd Hv H. unfold put_dword. destruct (put_word_ok w f d (Z.shiftr v 16 mod 65536) Jd) as (d1 & -> & J1); [lia|lia|]. cbn [bind].
  destruct (put_word_ok _ f d1 (Z.land v 65535 mod 65536) J1) as (d2 & -> & J2); [lia|rewrite zlen_app; change (zlen (be16 _)) with 2; lia|].
  exists d2. split; [reflexivity|]. rewrite <- app_assoc in J2. cbn [app be16] in J2.
  replace (be32 v) with (be16 (Z.shiftr v 16 mod 65536) ++ be16 (Z.land v 65535 mod 65536)); [exact J2|].
  unfold be16, be32. cbn [app]. rewrite Z.shiftr_div_pow2 by lia. change 65535 with (2 ^ 16 - 1). rewrite (land_ones_mod v 16 ltac:(lia)). change (2 ^ 16) with 65536.
  f_equal; [lia|]. f_equal; [lia|]. f_equal; [lia|]. f_equal. lia.
Qed.

Lemma run_ok ops : forall w f d v, J w f d -> Forall op_ok ops -> zlen w + total ops < 2 ^ 64 ->
  exists d', run d v ops = Ret (d', snd (spec w f v ops)) /\ pos d' = zlen (fst (spec w f v ops)).
Proof.
  induction ops as [|o ops IH]; intros w f d v Jd Ho Ht; [exists d; split; [reflexivity|apply Jd]|].
  inversion Ho as [|o' ops' O1 O2]; subst. change (total (o :: ops)) with (zlen (bytes_of o) + total ops) in Ht.
  assert (0 <= total ops) as N. { clear. unfold total. induction ops as [|o ops IH]; cbn; [lia|]. pose proof (zlen_nonneg (bytes_of o)). lia. }
  pose proof (zlen_nonneg w) as Nw.
  assert (forall d1, J (w ++ bytes_of o) f d1 -> exists d', (let* (d, es) := run d1 v ops in Ret (d, Nothing :: es)) = Ret (d', snd (let '(r, es) := spec (w ++ bytes_of o) f v ops in (r, Nothing :: es))) /\ pos d' = zlen (fst (let '(r, es) := spec (w ++ bytes_of o) f v ops in (r, Nothing :: es)))) as K.
  { intros d1 J1. destruct (IH _ f d1 v J1 O2) as (d' & -> & P); [rewrite zlen_app; lia|]. cbn [bind]. destruct (spec _ _ _ _). exists d'. auto. }
  destruct o; cbn [run exec spec bytes_of op_ok] in *.
  - destruct (put_byte_ok w f d b Jd) as (d1 & -> & J1); [change (zlen [b]) with 1 in Ht; lia|]. cbn [bind]. now apply K.
  - destruct (put_word_ok w f d w0 Jd) as (d1 & -> & J1); [lia|rewrite be16_len in Ht; lia|]. cbn [bind]. now apply K.
  - destruct (put_dword_ok w f d w0 Jd) as (d1 & -> & J1); [lia|rewrite be32_len in Ht; lia|]. cbn [bind]. now apply K.
  - destruct (put_ok w f d l (zlen l) Jd) as (d1 & E & J1); [reflexivity|lia|]. unfold put_N_bytes. rewrite E. cbn [bind]. now apply K.
  - unfold reserve. destruct (ensure_ok w f d n Jd) as (d1 & -> & J1 & _); [lia|]. cbn [bind]. rewrite app_nil_r in K. rewrite app_nil_r. now apply K.
  - cbn [bind]. destruct (IH [] false (clear d) v) as (d' & -> & P).
    + destruct Jd as [P C D F Fl]. constructor; cbn [pos buf capacity is_flushed clear]; auto; change (zlen (@nil Z)) with 0; try lia.
    + exact O2.
    + change (zlen (@nil Z)) with 0 in *. lia.
    + cbn [bind]. destruct (spec [] false v ops). exists d'. auto.
  - assert (flush_file d = Ret (map Some w)) as ->.
    { destruct Jd as [P C D F Fl]. unfold flush_file, mem_get. rewrite P. destruct (Z.eqb_spec (zlen w) 0); [apply zlen_0 in e; now subst|].
      replace (zlen w <=? zlen (buf d)) with true by lia. now rewrite D. }
    cbn [bind]. destruct (IH w f d v Jd O2) as (d' & -> & P); [change (zlen (@nil Z)) with 0 in *; lia|]. cbn [bind]. destruct (spec w f v ops). exists d'. auto.
  - change (zlen (@nil Z)) with 0 in *. unfold flush_vector. rewrite (j_flag w f d Jd). destruct f.
    + cbn [bind]. destruct (IH w true d v Jd O2) as (d' & -> & P); [lia|]. cbn [bind]. destruct (spec w true v ops). exists d'. auto.
    + assert ((if pos d =? 0 then Ret [] else mem_get (buf d) (pos d)) = Ret (map Some w)) as ->.
      { destruct Jd as [P C D F Fl]. unfold mem_get. rewrite P. destruct (Z.eqb_spec (zlen w) 0); [apply zlen_0 in e; now subst|].
        replace (zlen w <=? zlen (buf d)) with true by lia. now rewrite D. }
      cbn [bind]. destruct (IH w true (Dst (buf d) (capacity d) (pos d) true) (map Some w)) as (d' & -> & P); [destruct Jd; constructor; auto|exact O2|lia|].
      cbn [bind]. destruct (spec w true (map Some w) ops). exists d'. auto.
Qed.

(** ** C44 *)

(** Any sequence of writes, reservations, clears and flushes totalling less than
    2^64 bytes stays inside its allocations, and every flush delivers exactly
    the bytes written since the last clear, in order, each written; a vector
    is filled at most once between clears. *)
Theorem C44_append_only : forall ops v, Forall op_ok ops -> total ops < 2 ^ 64 ->
  exists d, run dst0 v ops = Ret (d, snd (spec [] false v ops)) /\ get_length d = zlen (fst (spec [] false v ops)).
Proof. intros ops v Ho Ht. apply run_ok; [constructor; cbn; auto; lia|exact Ho|cbn; lia]. Qed.
Print Assumptions C44_append_only.

(** In particular, writes only and then one flush. *)
Theorem C44_concatenation : forall ops v,
  Forall op_ok ops -> total ops < 2 ^ 64 -> Forall (fun o => match o with PutByte _ | PutWord _ | PutDword _ | PutN _ | Reserve _ => True | _ => False end) ops ->
  exists d es, run dst0 v (ops ++ [FlushVector; FlushVector]) =
    Ret (d, es ++ [ToVector (map Some (flat_map bytes_of ops)) true; ToVector (map Some (flat_map bytes_of ops)) false]).
Proof.
  intros ops v Ho Ht Hw. destruct (C44_append_only (ops ++ [FlushVector; FlushVector]) v) as (d & R & _).
  - apply Forall_app. split; [exact Ho|]. repeat constructor.
  - assert (total (ops ++ [FlushVector; FlushVector]) = total ops) as ->; [|exact Ht]. clear. unfold total. induction ops as [|o ops IH]; [reflexivity|]. cbn [app map fold_right]. now rewrite IH.
  - exists d, (map (fun _ => Nothing) ops). rewrite R. do 2 f_equal.
    assert (forall w, snd (spec w false v (ops ++ [FlushVector; FlushVector])) = map (fun _ => Nothing) ops ++ [ToVector (map Some (w ++ flat_map bytes_of ops)) true; ToVector (map Some (w ++ flat_map bytes_of ops)) false]) as K; [|apply K].
    clear - Hw. induction Hw as [|o ops Hw _ IH]; intros w; [cbn; now rewrite app_nil_r|].
    destruct o; try contradiction; cbn [app spec map flat_map bytes_of]; 
      match goal with |- context [spec ?w' false v (ops ++ _)] => specialize (IH w'); destruct (spec w' false v (ops ++ _)); cbn [snd] in *; rewrite IH end; rewrite <- ?app_assoc; reflexivity.
Qed.
Print Assumptions C44_concatenation.

Example C44_case : let ops := [PutWord 65359; Reserve 4096; PutDword 16909060; PutByte 7; PutN [8; 9]; FlushVector; FlushVector; Clear; PutByte 1; FlushVector] in
  Forall op_ok ops /\ snd (spec [] false [] ops) =
    [Nothing; Nothing; Nothing; Nothing; Nothing; ToVector (map Some [255; 79; 1; 2; 3; 4; 7; 8; 9]) true; ToVector (map Some [255; 79; 1; 2; 3; 4; 7; 8; 9]) false; Nothing; Nothing; ToVector [Some 1] true].
Proof. split; [repeat constructor; cbn; lia|reflexivity]. Qed.
