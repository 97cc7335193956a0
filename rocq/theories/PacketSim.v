(** A header parsed from one source of bits is parsed alike from any source that
    delivers the same bits. *)
From Verif Require Import Base BaseLemmas ChainModel PacketModel PacketCode.

Section Sim.
Context {S1 S2 : Type}.
Variable get1 : S1 -> ex (Z * S1).
Variable get2 : S2 -> ex (Z * S2).
Variable follows : S1 -> S2 -> Prop.
Definition sim {A} (x : ex (A * S1)) (y : ex (A * S2)) : Prop :=
  forall a l', x = ret (a, l') -> exists s', y = ret (a, s') /\ follows l' s'.
Hypothesis sim_get : forall l s, follows l s -> sim (get1 l) (get2 s).
Lemma bindx_inv {A B} (m : ex A) (k : A -> ex B) r : bindx m k = ret r -> exists a, m = ret a /\ k a = ret r.
Proof. destruct m as [[a|]| |]; cbn [bindx]; intros H; try discriminate. exists a. split; [reflexivity|exact H]. Qed.
Lemma bindx_ret {A B} (a : A) (k : A -> ex B) : bindx (ret a) k = k a.
Proof. reflexivity. Qed.

Ltac sim1 :=
  match goal with
  | H : bindx (lift ?m) _ = ret _ |- _ => let a := fresh "a" in let E := fresh "E" in apply bindx_inv in H; destruct H as (a & E & H); rewrite E, bindx_ret; cbv beta iota zeta in H |- *
  | H : bindx (@ret ?A ?v) _ = ret _ |- _ => rewrite bindx_ret in H |- *; cbv beta iota zeta in H |- *
  | H : bindx (if ?c then _ else _) _ = ret _ |- _ => destruct c eqn:?; cbv beta iota in H
  | H : bindx ?m _ = ret _ |- _ =>
      let a := fresh "a" in let s' := fresh "s" in let E := fresh "E" in let E' := fresh "E" in let R := fresh "R" in
      apply bindx_inv in H; destruct H as ([a s'] & E & H); cbv beta iota in H;
      first [eapply sim_get in E; [|eassumption] | match goal with IH : forall _, _ |- _ => eapply IH in E; [|eassumption] end];
      destruct E as (? & E' & R); rewrite E', bindx_ret; cbv beta iota zeta in H |- *
  | H : (if ?c then _ else _) = ret _ |- _ => destruct c eqn:?; cbv beta iota in H
  | H : throw = ret _ |- _ => discriminate H
  | H : NoFuel = ret _ |- _ => discriminate H
  | H : UB = ret _ |- _ => discriminate H
  | H : ret _ = ret _ |- _ => injection H as ? ?; subst; eexists; split; [reflexivity|assumption]
  end.
Lemma sim_bits n : forall v s l, follows l s -> sim (get_bits get1 n v l) (get_bits get2 n v s).
Proof.
  induction n as [|n IH]; intros v s l R a l' H; cbn [get_bits] in *; repeat sim1. eapply IH; eassumption.
Qed.
Lemma sim_N N s l : follows l s -> sim (get_N get1 N l) (get_N get2 N s).
Proof. apply sim_bits. Qed.
Lemma sim_node thr i t b s l : follows l s -> sim (get_inclusion_node get1 thr i t b l) (get_inclusion_node get2 thr i t b s).
Proof. intros R a l' H. unfold get_inclusion_node in *. repeat sim1. Qed.
Lemma sim_inclusion thr p : forall t b s l, follows l s -> sim (get_inclusion get1 thr p t b l) (get_inclusion get2 thr p t b s).
Proof.
  induction p as [|i p IH]; intros t b s l R a l' H; cbn [get_inclusion] in *; [sim1|]. pose proof sim_node as L. sim1. destruct a0. eapply IH; eassumption.
Qed.
Lemma sim_loop fuel : forall v s l, follows l s -> sim (zbp_loop get1 fuel v l) (zbp_loop get2 fuel v s).
Proof. induction fuel as [|fuel IH]; intros v s l R a l' H; cbn [zbp_loop] in *; repeat sim1. eapply IH; eassumption. Qed.
Lemma sim_zbp_node fuel i t s l : follows l s -> sim (get_zbp_node get1 fuel i t l) (get_zbp_node get2 fuel i t s).
Proof.
  intros R a l' H. unfold get_zbp_node in *. sim1. sim1; [|sim1]. apply bindx_inv in H. destruct H as (n & E0 & H). match goal with |- context [bindx ?m _] => replace m with (ret n : ex node) by (symmetry; exact E0) end. rewrite bindx_ret. cbv beta iota zeta in H |- *.
  pose proof sim_loop as L. repeat sim1.
Qed.
Lemma sim_zbp fuel p : forall t s l, follows l s -> sim (get_zbp get1 fuel p t l) (get_zbp get2 fuel p t s).
Proof. induction p as [|i p IH]; intros t s l R a l' H; cbn [get_zbp] in *; [sim1|]. pose proof sim_zbp_node as L. sim1. eapply IH; eassumption. Qed.
Lemma sim_first fuel layer ccap i b inc zbp s l : follows l s -> sim (first_inclusion get1 fuel layer ccap i b inc zbp l) (first_inclusion get2 fuel layer ccap i b inc zbp s).
Proof.
  intros R a l' H. unfold first_inclusion in *. cbv zeta in *. sim1. apply bindx_inv in H. destruct H as ([[inc1 is1] l1] & E1 & H). cbv beta iota in H.
  assert (exists s1, (if 0 <? layer then get_inclusion get2 0 (rev a0) inc false s else ret (inc, false, s)) = ret (inc1, is1, s1) /\ follows l1 s1) as (s1 & E2 & R1).
  { destruct (0 <? layer); [eapply sim_inclusion in E1; [exact E1|exact R]|]. injection E1 as <- <- <-. eauto. }
  rewrite E2, bindx_ret. cbv beta iota. pose proof sim_inclusion as L. sim1. destruct a1 as [inc2 is2]. clear L. pose proof sim_zbp as L. repeat sim1.
Qed.
Lemma sim_passes s l : follows l s -> sim (get_passes get1 l) (get_passes get2 s).
Proof. intros R a l' H. unfold get_passes in *. pose proof sim_N as L. repeat sim1. Qed.
Lemma sim_lblock fuel : forall v s l, follows l s -> sim (get_lblock get1 fuel v l) (get_lblock get2 fuel v s).
Proof. induction fuel as [|fuel IH]; intros v s l R a l' H; cbn [get_lblock] in *; repeat sim1. eapply IH; eassumption. Qed.
Lemma sim_grow fuel : forall bound n v s l, follows l s -> sim (grow_read get1 fuel bound n v l) (grow_read get2 fuel bound n v s).
Proof. induction fuel as [|fuel IH]; intros bound n v s l R a l' H; cbn [grow_read] in *; repeat sim1. eapply IH; eassumption. Qed.
Lemma sim_phld b n s l : follows l s -> sim (phld_segment get1 b n l) (phld_segment get2 b n s).
Proof.
  intros R a l' H. unfold phld_segment in *. cbv zeta in *. pose proof sim_N as L. pose proof sim_grow as L1. sim1.
  - destruct (grow _ _ _ _). repeat sim1.
  - destruct (grow _ _ _ _) as [bits bound]. sim1. sim1; [repeat sim1|]. sim1; [repeat sim1|]. apply bindx_inv in H. destruct H as (f & E & H). match goal with |- context [bindx ?m _] => replace m with (ret f : ex bool) by (symmetry; exact E) end. rewrite bindx_ret. cbv beta iota in *. repeat sim1.
Qed.
Lemma sim_ht b n s l : follows l s -> sim (ht_segment get1 b n l) (ht_segment get2 b n s).
Proof. intros R a l' H. unfold ht_segment in *. pose proof sim_N as L. cbv zeta in *. repeat sim1. Qed.
Lemma sim_bypass b n s l : follows l s -> sim (bypass_segment get1 b n l) (bypass_segment get2 b n s).
Proof. intros R a l' H. unfold bypass_segment in *. pose proof sim_N as L. cbv zeta in *. destruct (if npasses b <? 10 then _ else _) as [[sp bits] next]. repeat sim1. Qed.
Lemma sim_segment b n s l : follows l s -> sim (first_segment get1 b n l) (first_segment get2 b n s).
Proof.
  intros R a l' H. unfold first_segment in *. pose proof sim_N as L. cbv zeta in *.
  sim1; [eapply sim_phld; eassumption|]. sim1; [eapply sim_ht; eassumption|]. sim1; [repeat sim1|]. sim1; [repeat sim1|]. eapply sim_bypass; eassumption.
Qed.
Lemma sim_hts fuel : forall b new next empty s l, follows l s -> sim (ht_segments get1 fuel b new next empty l) (ht_segments get2 fuel b new next empty s).
Proof.
  induction fuel as [|fuel IH]; intros b new next empty s l R a l' H; cbn [ht_segments] in *; [sim1|]. cbv zeta in *. sim1; [sim1|]. pose proof sim_N as L. sim1.
  apply bindx_inv in H. destruct H as ([b1 e1] & E & H). cbv beta iota in H. match goal with |- context [bindx ?m _] => replace m with (ret (b1, e1) : ex (cb * bool)) by (symmetry; exact E) end. rewrite bindx_ret. cbv beta iota.
  apply bindx_inv in H. destruct H as (b2 & E2 & H). cbv beta iota in H. rewrite E2, bindx_ret. eapply IH; eassumption.
Qed.
Lemma sim_plain fuel : forall b new next term s l, follows l s -> sim (plain_segments get1 fuel b new next term l) (plain_segments get2 fuel b new next term s).
Proof.
  induction fuel as [|fuel IH]; intros b new next term s l R a l' H; cbn [plain_segments] in *; [sim1|]. cbv zeta in *. sim1; [sim1|]. pose proof sim_N as L. destruct (if negb (term =? 0) then _ else _) as [[sp next1] bits]. sim1.
  apply bindx_inv in H. destruct H as (b2 & E2 & H). cbv beta iota in H. rewrite E2, bindx_ret. eapply IH; eassumption.
Qed.
Lemma sim_contribution fuel layer b s l : follows l s -> sim (contribution get1 fuel layer b l) (contribution get2 fuel layer b s).
Proof.
  intros R a l' H. unfold contribution in *. pose proof sim_passes as L1. sim1. clear L1. sim1. pose proof sim_lblock as L2. sim1. clear L2. pose proof sim_segment as L3. sim1. clear L3.
  apply bindx_inv in H. destruct H as (b2 & Ex & H). cbv beta iota zeta in H. rewrite Ex, bindx_ret. cbv zeta. sim1; [eapply sim_hts; eassumption|eapply sim_plain; eassumption].
Qed.
Lemma sim_block fuel layer ccap i b inc zbp s l : follows l s -> sim (parse_block get1 fuel layer ccap i b inc zbp l) (parse_block get2 fuel layer ccap i b inc zbp s).
Proof.
  intros R a l' H. unfold parse_block in *. sim1. apply bindx_inv in H. destruct H as ([[[[inc1 zbp1] is1] b1] l1] & E1 & H). cbv beta iota in H.
  assert (exists s1, (if included a0 then let? (bit, s) := get2 s in ret (inc, zbp, negb (bit =? 0), a0, s) else first_inclusion get2 fuel layer ccap i a0 inc zbp s) = ret (inc1, zbp1, is1, b1, s1) /\ follows l1 s1) as (s1 & E2 & R1).
  { destruct (included a0); [|eapply sim_first in E1; [exact E1|exact R]]. apply bindx_inv in E1. destruct E1 as ([bit l2] & E1 & E3). cbv beta iota in E3. eapply sim_get in E1; [|exact R]. destruct E1 as (s2 & E4 & R2). rewrite E4, bindx_ret. injection E3 as <- <- <- <- <-. eauto. }
  rewrite E2, bindx_ret. cbv beta iota. pose proof sim_contribution as L. repeat sim1.
Qed.
Lemma sim_blocks fuel layer ccap : forall bs i inc zbp s l, follows l s -> sim (parse_blocks get1 fuel layer ccap i bs inc zbp l) (parse_blocks get2 fuel layer ccap i bs inc zbp s).
Proof.
  induction bs as [|b bs IH]; intros i inc zbp s l R a l' H; cbn [parse_blocks] in *; [sim1|].
  apply bindx_inv in H. destruct H as ([[[inc1 zbp1] b1] l1] & E1 & H). cbv beta iota in H. eapply sim_block in E1; [|exact R]. destruct E1 as (s1 & E1 & R1). rewrite E1, bindx_ret. cbv beta iota.
  apply bindx_inv in H. destruct H as ([[[inc2 zbp2] b2] l2] & E2 & H). cbv beta iota in H. eapply IH in E2; [|exact R1]. destruct E2 as (s2 & E2 & R2). rewrite E2, bindx_ret. cbv beta iota. sim1.
Qed.
Lemma sim_header fuel layer ccap d s l : follows l s -> sim (parse_packet_header get1 fuel layer ccap d l) (parse_packet_header get2 fuel layer ccap d s).
Proof.
  intros R a l' H. unfold parse_packet_header in *. sim1; [sim1|]. apply bindx_inv in H. destruct H as ([[[inc1 zbp1] b1] l1] & E1 & H). cbv beta iota in H. eapply sim_blocks in E1; [|exact R]. destruct E1 as (s1 & E1 & R1). rewrite E1, bindx_ret. cbv beta iota. sim1.
Qed.
Lemma sim_bands fuel layer ccap : forall ds s l, follows l s -> sim (parse_bands get1 fuel layer ccap ds l) (parse_bands get2 fuel layer ccap ds s).
Proof. induction ds as [|d ds IH]; intros s l R a l' H; cbn [parse_bands] in *; [sim1|]. pose proof sim_header as L. sim1. clear L. repeat sim1. Qed.
End Sim.

(** From [s] the source delivers [l] and is then [e]. *)
Fixpoint reads {S} (get : S -> ex (Z * S)) (s : S) (l : list Z) (e : S) : Prop :=
  match l with [] => s = e | b :: l => exists s', get s = ret (b, s') /\ reads get s' l e end.
Lemma sim_list {S} (get : S -> ex (Z * S)) e l s : reads get s l e -> sim (fun l s => reads get s l e) (list_bit l) (get s).
Proof. destruct l as [|b l]; intros R a l' H; [discriminate|]. injection H as <- <-. exact R. Qed.
