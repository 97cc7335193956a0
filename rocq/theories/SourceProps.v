(** Codestream input stays inside the input (C36). *)
From Verif Require Import Base BaseLemmas SourceModel.

(** ** Specification: a cursor over a list of bytes. *)
Definition reading (input : list Z) (p : Z) (n : Z) : Z * option (list Z) :=
  if p + n <=? zlen input then (p + n, Some (ztake n (zskip p input))) else (p, None).
Definition spec (input : list Z) (p : Z) (o : op) : Z * option (list Z) :=
  match o with
  | GetByte => reading input p 1
  | GetWord => reading input p 2
  | GetN n => reading input p n
  | Rewind => if p <? 2 then (p, None) else (p - 2, Some [])
  | Forward n => if p + n <=? zlen input then (p + n, Some []) else (p, None)
  end.
Fixpoint spec_run (input : list Z) (p : Z) (ops : list op) : Z * list (option (list Z)) :=
  match ops with
  | [] => (p, [])
  | o :: ops => let '(p, r) := spec input p o in let '(p, rs) := spec_run input p ops in (p, r :: rs)
  end.
(** Counts are uint32_t. *)
Definition op_ok (o : op) : Prop := match o with GetN n | Forward n => 0 <= n < two32 | _ => True end.
(** Counts that cannot wrap together with a position. *)
Definition op_small (input : list Z) (o : op) : Prop := match o with GetN n => 0 <= n < two32 | Forward n => 0 <= n < two32 - zlen input | _ => True end.

Definition is_src (input : list Z) (p : Z) (s : src) : Prop := s = Src (Some input) p (zlen input) /\ 0 <= p <= zlen input.

Lemma reading1 input p : 0 <= p < zlen input -> ztake 1 (zskip p input) = [znth 0 input p].
Proof. intros H. rewrite (zskip_cons_nth 0) by lia. reflexivity. Qed.
Lemma reading2 input p : 0 <= p -> p + 1 < zlen input -> ztake 2 (zskip p input) = [znth 0 input p; znth 0 input (p + 1)].
Proof. intros H H'. rewrite (zskip_cons_nth 0) by lia. rewrite (zskip_cons_nth 0 input (p + 1)) by lia. reflexivity. Qed.

Section One.
Variable input : list Z.
Hypothesis Hb : bytes_ok input.
Hypothesis Hl : 0 < zlen input <= two32 - 17.

Lemma get_byte_in p : 0 <= p < zlen input -> get_byte (Src (Some input) p (zlen input)) = good (Src (Some input) (p + 1) (zlen input)) (znth 0 input p).
Proof.
  intros H. unfold get_byte, at_buf. cbn [data pos len]. rewrite !wrap32_small by (unfold two32 in *; lia).
  replace (zlen input - 1 <? p) with false by lia. rewrite rd_in by lia. cbn [bind]. reflexivity.
Qed.
Lemma get_byte_end : get_byte (Src (Some input) (zlen input) (zlen input)) = fail (Src (Some input) (zlen input) (zlen input)).
Proof. unfold get_byte. cbn [data pos len]. rewrite wrap32_small by (unfold two32 in *; lia). replace (zlen input - 1 <? zlen input) with true by lia. reflexivity. Qed.

Lemma exec_spec p o : 0 <= p <= zlen input -> 2 <= zlen input -> op_small input o ->
  exec (Src (Some input) p (zlen input)) o = Ret (Src (Some input) (fst (spec input p o)) (zlen input), snd (spec input p o)) /\
  0 <= fst (spec input p o) <= zlen input.
Proof.
  intros Hp L2 Ho. destruct o as [| |n| |n]; cbn [exec spec op_small] in *; unfold reading.
  - destruct (Z.leb_spec (p + 1) (zlen input)); cbn [fst snd].
    + rewrite get_byte_in by lia. cbn [andthen good]. rewrite reading1 by lia. split; [reflexivity|lia].
    + assert (p = zlen input) as -> by lia. rewrite get_byte_end. cbn. split; [reflexivity|lia].
  - unfold get_word. cbn [pos len]. rewrite wrap32_small by (unfold two32 in *; lia). destruct (Z.leb_spec (p + 2) (zlen input)); cbn [fst snd].
    + replace (zlen input - 2 <? p) with false by lia. rewrite get_byte_in by lia. cbn [andthen good]. rewrite get_byte_in by lia. cbn [andthen good].
      pose proof (bytes_ok_nth _ p Hb ltac:(lia)) as B1. pose proof (bytes_ok_nth _ (p + 1) Hb ltac:(lia)) as B2. unfold byte_ok in *.
      rewrite reading2 by lia. rewrite Z.shiftl_mul_pow2 by lia. change (2 ^ 8) with 256. split; [|lia]. unfold good. do 3 f_equal; [lia|]. do 2 f_equal; lia.
    + replace (zlen input - 2 <? p) with true by lia. cbn. split; [reflexivity|lia].
  - unfold get_N_byte. cbn [data pos len]. rewrite wrap32_small by (unfold two32 in *; lia). destruct (Z.leb_spec (p + n) (zlen input)); cbn [fst snd].
    + replace ((zlen input <? p) || (zlen input - p <? n)) with false by lia. replace (p + n <=? zlen input) with true by lia. rewrite wrap32_small by (unfold two32 in *; lia). split; [reflexivity|lia].
    + replace ((zlen input <? p) || (zlen input - p <? n)) with true by lia. split; [reflexivity|lia].
  - unfold rewind_2bytes. cbn [data pos len]. destruct (Z.ltb_spec p 2); cbn; (split; [reflexivity|lia]).
  - unfold forward_Nbytes. cbn [data pos len]. rewrite wrap32_small by (unfold two32 in *; lia). destruct (Z.leb_spec (p + n) (zlen input)); cbn; (split; [reflexivity|lia]).
Qed.

(** Whatever the counts, nothing outside the input is read and the position
    stays inside it. *)
Lemma exec_safe p o : 0 <= p <= zlen input -> op_ok o -> exists p' r, exec (Src (Some input) p (zlen input)) o = Ret (Src (Some input) p' (zlen input), r) /\ 0 <= p' <= zlen input.
Proof.
  intros Hp Ho.
  assert (forall q, 0 <= q <= zlen input -> exists p' r, get_byte (Src (Some input) q (zlen input)) = Ret (Src (Some input) p' (zlen input), r) /\ 0 <= p' <= zlen input) as K.
  { intros q Hq. destruct (Z.eq_dec q (zlen input)) as [->|]; [rewrite get_byte_end|rewrite get_byte_in by lia]; eexists; eexists; (split; [reflexivity|lia]). }
  destruct o as [| |n| |n]; cbn [exec op_ok] in *.
  - destruct (K p Hp) as (p' & r & -> & H). destruct r; cbn; eexists; eexists; (split; [reflexivity|lia]).
  - unfold get_word. destruct (_ <? _); [cbn; eexists; eexists; (split; [reflexivity|lia])|].
    destruct (K p Hp) as (p' & r & -> & H). destruct r; cbn; [|eexists; eexists; (split; [reflexivity|lia])].
    destruct (K p' H) as (q & r & -> & H'). destruct r; cbn; eexists; eexists; (split; [reflexivity|lia]).
  - unfold get_N_byte. cbn [data pos len]. rewrite wrap32_small by (unfold two32 in *; lia).
    destruct ((zlen input <? p) || (zlen input - p <? n)) eqn:C; [cbn; eexists; eexists; (split; [reflexivity|lia])|].
    replace (p + n <=? zlen input) with true by lia. rewrite wrap32_small by (unfold two32 in *; lia). eexists. eexists. split; [reflexivity|lia].
  - unfold rewind_2bytes. cbn [data pos len]. destruct (Z.ltb_spec p 2); cbn; eexists; eexists; (split; [reflexivity|lia]).
  - unfold forward_Nbytes. cbn [data pos len]. destruct (Z.leb_spec (wrap32 (p + n)) (zlen input)); cbn; eexists; eexists; (split; [reflexivity|]); [|lia].
    unfold wrap32, two32 in *. pose proof (Z.mod_pos_bound (p + n) (2 ^ 32)). lia.
Qed.
End One.

(** ** C36 *)

(** On any non-empty input, any sequence of calls with any counts, however many
    of them throw, reads only bytes of the input and leaves the position in it. *)
Theorem C36_safe : forall input ops, bytes_ok input -> 0 < zlen input <= two32 - 17 -> Forall op_ok ops ->
  exists p rs, match set_memory src0 input with Some s => run s ops | None => UB end = Ret (Src (Some input) p (zlen input), rs) /\ 0 <= p <= zlen input.
Proof.
  intros input ops B L F. unfold set_memory. replace (two32 - 1 - 16 <? zlen input) with false by lia. rewrite wrap32_small by (unfold two32 in *; lia).
  assert (forall p, 0 <= p <= zlen input -> exists p' rs, run (Src (Some input) p (zlen input)) ops = Ret (Src (Some input) p' (zlen input), rs) /\ 0 <= p' <= zlen input) as K; [|apply K; lia].
  induction F as [|o ops Ho F IH]; intros p Hp; cbn [run]; [eexists; eexists; (split; [reflexivity|lia])|].
  destruct (exec_safe input L p o Hp Ho) as (p1 & r & -> & H1). cbn [bind]. destruct (IH p1 H1) as (p2 & rs & -> & H2). cbn [bind]. eexists. eexists. split; [reflexivity|lia].
Qed.

(** On an input of at least two bytes the calls are exactly a cursor over it, as
    long as no skip count reaches 4 GiB together with the length. *)
Theorem C36_cursor : forall input ops, bytes_ok input -> 2 <= zlen input <= two32 - 17 -> Forall (op_small input) ops ->
  match set_memory src0 input with Some s => run s ops | None => UB end =
  Ret (Src (Some input) (fst (spec_run input 0 ops)) (zlen input), snd (spec_run input 0 ops)).
Proof.
  intros input ops B L F. unfold set_memory. replace (two32 - 1 - 16 <? zlen input) with false by lia. rewrite wrap32_small by (unfold two32 in *; lia).
  assert (forall p, 0 <= p <= zlen input -> run (Src (Some input) p (zlen input)) ops = Ret (Src (Some input) (fst (spec_run input p ops)) (zlen input), snd (spec_run input p ops))) as K; [|apply K; lia].
  induction F as [|o ops Ho F IH]; intros p Hp; cbn [run spec_run]; [reflexivity|].
  destruct (exec_spec input B ltac:(lia) p o Hp ltac:(lia) Ho) as [-> H]. cbn [bind]. destruct (spec input p o) as [p1 r]. cbn [fst snd] in *. rewrite IH by exact H. cbn [bind].
  destruct (spec_run input p1 ops). reflexivity.
Qed.

(** The number of bytes left is exact. *)
Theorem C36_remaining : forall input p, 0 <= p <= zlen input -> zlen input <= two32 - 17 -> get_remaining (Src (Some input) p (zlen input)) = zlen (zskip p input).
Proof. intros input p H L. unfold get_remaining. cbn [pos len]. rewrite wrap32_small by (unfold two32 in *; lia). rewrite zlen_zskip by lia. reflexivity. Qed.

(** An input over the limit is refused. *)
Theorem C36_limit : forall s input, set_memory s input = None <-> 2 ^ 32 - 17 < zlen input.
Proof. intros s input. unfold set_memory, two32. destruct (Z.ltb_spec (2 ^ 32 - 1 - 16) (zlen input)); split; intros; try congruence; lia. Qed.

(** On an empty input the test "pos > len - 1" wraps, and the first byte or word
    is read from outside the input. *)
Theorem C36_empty_refuted : exists s, set_memory src0 [] = Some s /\ get_byte s = UB /\ get_word s = UB.
Proof. eexists. split; [reflexivity|]. split; reflexivity. Qed.

(** A skip count near 4 GiB wraps and moves backwards instead of failing. *)
Theorem C36_skip_refuted : exists input s, zlen input = 16 /\ set_memory src0 input = Some s /\
  run s [Forward 10; Forward (2 ^ 32 - 8)] = Ret (Src (Some input) 2 16, [Some []; Some []]).
Proof. exists (repeat 7 16). eexists. split; [reflexivity|]. split; reflexivity. Qed.
Print Assumptions C36_safe.
Print Assumptions C36_cursor.
Print Assumptions C36_remaining.
Print Assumptions C36_limit.
Print Assumptions C36_empty_refuted.
Print Assumptions C36_skip_refuted.

Example C36_case : let input := [255; 79; 255; 81; 0; 5; 1; 2; 3] in
  match set_memory src0 input with Some s => run s [GetWord; GetWord; GetWord; GetN 3; GetByte; Rewind; GetByte; Forward 5] | None => UB end =
  Ret (Src (Some input) 8 9, [Some [255; 79]; Some [255; 81]; Some [0; 5]; Some [1; 2; 3]; None; Some []; Some [2]; None]).
Proof. reflexivity. Qed.
