(** Chains of tile-part bodies read as one stream (C35), and packet-header bits
    survive bit stuffing (C32). *)
From Verif Require Import Base BaseLemmas ChainModel.

(** ** Specification *)
(** The next [n] bytes a reader hands out. *)
Fixpoint read_bytes (n : nat) (c : chain) : out (list Z * chain) :=
  match n with
  | O => Ret ([], c)
  | S n => let* (b, c) := get_byte c in let* (l, c) := read_bytes n c in Ret (b :: l, c)
  end.
(** The first [n] bytes of the stream followed by zeros for ever. *)
Definition padded (n : nat) (l : list Z) : list Z := firstn n (l ++ repeat 0 n).
(** The next bits a reader hands out are [bs], and it ends as [c']. *)
Inductive Reads : chain -> list Z -> chain -> Prop :=
| Reads_nil c : Reads c [] c
| Reads_cons c b c1 bs c2 : get_bit c = Ret (b, c1) -> Reads c1 bs c2 -> Reads c (b :: bs) c2.
(** [l] is what is still to be read; [k] tile-parts were empty. *)
Record Ahead_gen (k : nat) (c : chain) (l : list Z) : Prop := {
  a_node : 0 <= node_pos c < zlen (nodes c) - Z.of_nat k;
  a_cur : current c = znth [] (nodes c) (node_pos c);
  a_pos : 0 <= pos c <= zlen (current c);
  a_full : exists full, nodes c = full ++ repeat [] k /\ Forall (fun n => 0 < zlen n < 2 ^ 32) full;
  a_l : l = zskip (pos c) (current c) ++ concat (zskip (node_pos c + 1) (nodes c)) }.
Notation Ahead := (Ahead_gen 0).
Definition bit (b : Z) : Prop := b = 0 \/ b = 1.
(** No byte after 255 is above 127, and the last byte is not 255. *)
Definition no_marker (l : list Z) : Prop :=
  forall i, 0 <= i < zlen l -> znth 0 l i = 255 -> i + 1 < zlen l /\ 0 <= znth 0 l (i + 1) <= 127.

(** ** Bytes *)
Lemma full_nth k c i : (exists full, nodes c = full ++ repeat [] k /\ Forall (fun n => 0 < zlen n < 2 ^ 32) full) ->
  0 <= i < zlen (nodes c) - Z.of_nat k -> 0 < zlen (znth [] (nodes c) i) < 2 ^ 32.
Proof.
  intros (full & E & F) H. rewrite E in *. rewrite zlen_app, zlen_repeat in H. rewrite znth_app_l by lia. refine (proj1 (Forall_forall _ _) F _ (znth_In [] full i _)); lia.
Qed.
Lemma concat_repeat_nil k : concat (repeat (@nil Z) k) = [].
Proof. induction k; [reflexivity|assumption]. Qed.
Lemma full_end k c i : (exists full, nodes c = full ++ repeat [] k /\ Forall (fun n => 0 < zlen n < 2 ^ 32) full) ->
  zlen (nodes c) - Z.of_nat k <= i -> concat (zskip i (nodes c)) = [].
Proof.
  intros (full & E & F) H. rewrite E in *. rewrite zlen_app, zlen_repeat in H. unfold zskip, zlen in *. rewrite skipn_app. rewrite skipn_all2 by lia. cbn [app].
  generalize (Z.to_nat i - length full)%nat as j. clear. induction k; intros [|j]; try reflexivity; [apply (concat_repeat_nil (S k))|apply IHk].
Qed.
Lemma get_byte_cons k c b l : Ahead_gen k c (b :: l) -> exists c', get_byte c = Ret (b, c') /\ Ahead_gen k c' l /\ tmp_byte c' = tmp_byte c /\ last_byte c' = last_byte c /\ bits c' = bits c /\ nodes c' = nodes c.
Proof.
  intros [N C P F L]. unfold get_byte.
  assert (0 < zlen (current c) < 2 ^ 32) as Fc by (rewrite C; now apply (full_nth k)).
  rewrite wrap32_small by (unfold two32; lia). destruct (Z.ltb_spec (zlen (current c) - 1) (pos c)) as [H|H].
  - rewrite zskip_all in L by lia. cbn [app] in L.
    destruct (Z_lt_le_dec (node_pos c + 1) (zlen (nodes c) - Z.of_nat k)) as [E|E]; [|rewrite (full_end k) in L by (auto; lia); discriminate].
    replace (zlen (nodes c) <=? node_pos c + 1) with false by lia.
    assert (0 <= node_pos c + 1 < zlen (nodes c) - Z.of_nat k) as N1 by lia. pose proof (full_nth k c _ F N1) as Fn.
    rewrite (zskip_cons_nth []) in L by lia. cbn [concat] in L. unfold read_current. cbn [current pos]. rewrite rd_in by lia. cbn [bind].
    destruct (znth [] (nodes c) (node_pos c + 1)) as [|x y] eqn:E1; [cbn in Fn; lia|]. cbn [app] in L. inversion L; subst b l. eexists. split; [reflexivity|].
    split; [|auto]. rewrite zlen_cons in Fn. constructor; cbn [node_pos pos nodes current]; auto; rewrite ?zlen_cons; try lia; reflexivity.
  - unfold read_current. rewrite rd_in by lia. cbn [bind]. rewrite (zskip_cons_nth 0) in L by lia. cbn [app] in L. inversion L; subst b l. eexists. split; [reflexivity|]. split; [|auto].
    constructor; cbn [node_pos pos nodes current]; auto; lia.
Qed.
Lemma get_byte_nil k c : Ahead_gen k c [] -> get_byte c = if (k =? 0)%nat then Ret (0, c) else UB.
Proof.
  intros [N C P F L]. unfold get_byte.
  assert (0 < zlen (current c) < 2 ^ 32) as Fc by (rewrite C; now apply (full_nth k)).
  rewrite wrap32_small by (unfold two32; lia). symmetry in L. apply app_eq_nil in L. destruct L as [L1 L2].
  destruct (Z.ltb_spec (zlen (current c) - 1) (pos c)) as [H|H].
  - destruct (Z_lt_le_dec (node_pos c + 1) (zlen (nodes c) - Z.of_nat k)) as [E|E].
    + exfalso. assert (0 <= node_pos c + 1 < zlen (nodes c) - Z.of_nat k) as N1 by lia. pose proof (full_nth k c _ F N1) as Fn.
      rewrite (zskip_cons_nth []) in L2 by lia. cbn [concat] in L2. apply app_eq_nil in L2. destruct L2 as [L2 _]. rewrite L2 in Fn. cbn in Fn. lia.
    + destruct (Nat.eqb_spec k 0) as [K|K]; [replace (zlen (nodes c) <=? node_pos c + 1) with true by lia; reflexivity|].
      replace (zlen (nodes c) <=? node_pos c + 1) with false by lia. unfold read_current. cbn [current pos].
      destruct F as (full & Ef & _). rewrite Ef in *. rewrite zlen_app, zlen_repeat in *. rewrite znth_app_r by lia. unfold znth. rewrite nth_repeat. reflexivity.
  - rewrite (zskip_cons_nth 0) in L1 by lia. discriminate.
Qed.
Lemma read_bytes_ok n : forall c l, Ahead c l -> exists c', read_bytes n c = Ret (padded n l, c') /\ Ahead c' (skipn n l).
Proof.
  induction n as [|n IH]; intros c l A; [exists c; split; [reflexivity|exact A]|]. cbn [read_bytes]. destruct l as [|b l].
  - rewrite (get_byte_nil 0) by exact A. cbn [bind Nat.eqb]. destruct (IH c [] A) as (c' & -> & A'). cbn [bind]. exists c'. split; [|destruct n; exact A'].
    unfold padded. cbn [app repeat firstn]. reflexivity.
  - destruct (get_byte_cons 0 c b l A) as (c1 & -> & A1 & _). cbn [bind]. destruct (IH c1 l A1) as (c' & -> & A'). cbn [bind]. exists c'. split; [|exact A'].
    unfold padded. cbn [app firstn]. do 3 f_equal. cbn [repeat]. rewrite repeat_cons, app_assoc.
    rewrite (firstn_app n (l ++ repeat 0 n) [0]). replace (n - length (l ++ repeat 0%Z n))%nat with 0%nat by (rewrite app_length, repeat_length; lia). rewrite firstn_O, app_nil_r. reflexivity.
Qed.
Lemma read_bytes_gen k l : forall c r, Ahead_gen k c (l ++ r) -> exists c', read_bytes (length l) c = Ret (l, c') /\ Ahead_gen k c' r.
Proof.
  induction l as [|b l IH]; intros c r A; [exists c; split; [reflexivity|exact A]|]. cbn [length read_bytes].
  destruct (get_byte_cons k c b _ A) as (c1 & -> & A1 & _). cbn [bind]. destruct (IH c1 r A1) as (c' & -> & A'). exists c'. auto.
Qed.

Lemma filter_full bodies : Forall (fun b : list Z => 0 < zlen b) bodies -> filter (fun b => negb (zlen b =? 0)) bodies = bodies.
Proof. induction 1 as [|b l H _ IH]; [reflexivity|]. cbn [filter]. replace (zlen b =? 0) with false by lia. cbn. now rewrite IH. Qed.
Lemma filter_Forall bodies : Forall (fun b : list Z => zlen b < 2 ^ 32) bodies -> Forall (fun b => 0 < zlen b < 2 ^ 32) (filter (fun b => negb (zlen b =? 0)) bodies).
Proof. intros H. rewrite Forall_forall in *. intros x I. apply filter_In in I. destruct I as [I J]. specialize (H x I). pose proof (zlen_nonneg x). lia. Qed.
Lemma concat_filter bodies : concat (filter (fun b : list Z => negb (zlen b =? 0)) bodies) = concat bodies.
Proof. induction bodies as [|b l IH]; [reflexivity|]. cbn [filter concat]. destruct (Z.eqb_spec (zlen b) 0) as [E|E]; cbn [negb]; [apply zlen_0 in E; subst; exact IH|cbn [concat]; now rewrite IH]. Qed.
Lemma activate_ahead k n ns : Forall (fun n => 0 < zlen n < 2 ^ 32) (n :: ns) -> exists c, activate ((n :: ns) ++ repeat [] k) = Ret c /\ Ahead_gen k c (concat (n :: ns)) /\ pos c = 0 /\ bits c = 0 /\ last_byte c = 0 /\ tmp_byte c = 0.
Proof.
  intros F. eexists. split; [reflexivity|]. split; [|cbn; auto 10]. constructor; cbn [node_pos pos nodes current]; auto; try lia.
  - cbn [app]; rewrite ?zlen_cons, ?zlen_app, ?zlen_cons, zlen_repeat. pose proof (zlen_nonneg ns). lia.
  - pose proof (zlen_nonneg n). lia.
  - exists (n :: ns). auto.
  - change (concat (n :: ns) = n ++ concat (ns ++ repeat [] k)). rewrite concat_app, concat_repeat_nil, app_nil_r. reflexivity.
Qed.
Lemma filter_count bodies : (length (filter (fun b : list Z => negb (zlen b =? 0)%Z) bodies) <= length bodies)%nat.
Proof. induction bodies as [|b l IH]; [cbn; lia|]. cbn [filter]. destruct (negb (zlen b =? 0)); cbn [length]; lia. Qed.

(** ** C35 *)

(** A tile whose tile-part bodies are all non-empty reads as their
    concatenation, then zeros, for any number of reads. *)
Theorem C35_one_stream_partial : forall bodies n, bodies <> [] -> Forall (fun b => 0 < zlen b < 2 ^ 32) bodies ->
  exists c c', create_tile_buf bodies = Ret c /\ read_bytes n c = Ret (padded n (concat bodies), c').
Proof.
  intros bodies n NE F. unfold create_tile_buf. rewrite filter_full by (eapply Forall_impl; [|exact F]; cbn; lia).
  rewrite Nat.sub_diag. cbn [repeat]. rewrite app_nil_r. destruct bodies as [|b bs]; [easy|].
  destruct (activate_ahead 0 b bs F) as (c & E & A & _). rewrite app_nil_r in E. destruct (read_bytes_ok n c _ A) as (c' & R & _). exists c, c'. auto.
Qed.
Print Assumptions C35_one_stream_partial.

(** Once a tile-part is empty, the bodies still read in order, but the read
    after the last byte is undefined (a null pointer is followed). *)
Theorem C35_empty_tile_part : forall bodies, Forall (fun b => zlen b < 2 ^ 32) bodies -> In [] bodies ->
  exists c c', create_tile_buf bodies = Ret c /\ read_bytes (length (concat bodies)) c = Ret (concat bodies, c') /\ get_byte c' = UB.
Proof.
  intros bodies F I. unfold create_tile_buf.
  assert (length (filter (fun b : list Z => negb (zlen b =? 0)%Z) bodies) < length bodies)%nat as Lt.
  { clear F. induction bodies as [|b l IH]; [easy|]. cbn [filter]. destruct I as [->|I]; [pose proof (filter_count l); cbn [length negb]; change (zlen (@nil Z) =? 0) with true; cbn [negb length]; lia|].
    specialize (IH I). destruct (negb (zlen b =? 0)); cbn [length]; lia. }
  set (k := (length bodies - _)%nat). assert (k <> 0)%nat as Hk by lia. clearbody k. pose proof (filter_Forall bodies F) as Ff. rewrite <- (concat_filter bodies).
  destruct (filter _ bodies) as [|n ns].
  - destruct k as [|k]; [easy|]. eexists _, _. cbn [app repeat activate]. split; [reflexivity|]. split; reflexivity.
  - destruct (activate_ahead k n ns Ff) as (c & E & A & _). exists c. rewrite <- (app_nil_r (concat (n :: ns))) in A.
    destruct (read_bytes_gen k (concat (n :: ns)) c [] A) as (c' & R & A'). exists c'. split; [exact E|]. split; [exact R|].
    rewrite (get_byte_nil k c' A'). destruct (Nat.eqb_spec k 0); [lia|reflexivity].
Qed.
Print Assumptions C35_empty_tile_part.

(** So the claim is false "however the bodies are sized": a tile whose only
    tile-part is empty follows a null pointer on its first read. *)
Theorem C35_however_sized_refuted : ~ (forall bodies n, bodies <> [] -> Forall (fun b => zlen b < 2 ^ 32) bodies ->
  exists c c', create_tile_buf bodies = Ret c /\ read_bytes n c = Ret (padded n (concat bodies), c')).
Proof.
  intros H. destruct (H [[]] 1%nat ltac:(discriminate) ltac:(repeat constructor)) as (c & c' & E & R).
  apply Ret_inj in E. subst c. discriminate R.
Qed.
Print Assumptions C35_however_sized_refuted.

(** A span no longer than what remains of the current body stays inside it. *)
Theorem C35_borrow : forall c l N, Ahead c l -> 0 <= N <= get_current_node_remaining_bytes c ->
  exists c', borrow_N_bytes c N = Ret (ztake N l, c') /\ Ahead c' (zskip N l).
Proof.
  intros c l N [Nn C P F L] H. unfold get_current_node_remaining_bytes in H. assert (pos c + N <= zlen (current c)) as HN by (destruct (Z.ltb_spec (pos c) (zlen (current c))); lia).
  unfold borrow_N_bytes. replace (pos c + N <=? zlen (current c)) with true by lia. eexists. split; [subst l; rewrite ztake_app_le; [reflexivity|rewrite zlen_zskip by lia; lia]|].
  constructor; cbn [node_pos pos nodes current]; auto; try lia. subst l. rewrite zskip_app_le by (rewrite zlen_zskip by lia; lia). rewrite zskip_zskip by lia. now rewrite Z.add_comm.
Qed.
Print Assumptions C35_borrow.

(** The reported position is the number of bytes read. *)
Theorem C35_position : forall bodies n, bodies <> [] -> Forall (fun b => 0 < zlen b < 2 ^ 32) bodies -> zlen (concat bodies) < 2 ^ 64 ->
  Z.of_nat n <= zlen (concat bodies) -> exists c c', create_tile_buf bodies = Ret c /\ read_bytes n c = Ret (padded n (concat bodies), c') /\ get_total_position c' = Z.of_nat n.
Proof.
  intros bodies n NE F T Hn. unfold create_tile_buf. rewrite filter_full by (eapply Forall_impl; [|exact F]; cbn; lia).
  rewrite Nat.sub_diag. cbn [repeat]. rewrite app_nil_r. destruct bodies as [|b bs]; [easy|].
  destruct (activate_ahead 0 b bs F) as (c & E & A & P0). rewrite app_nil_r in E. destruct (read_bytes_ok n c _ A) as (c' & R & A'). exists c, c'. split; [exact E|]. split; [exact R|].
  assert (nodes c' = b :: bs) as En.
  { assert (forall n c l c', read_bytes n c = Ret (l, c') -> nodes c' = nodes c) as K.
    { clear. induction n as [|n IH]; intros c l c' R; [now inversion R|]. cbn [read_bytes] in R. destruct (get_byte c) as [[x c1]| |] eqn:G; try discriminate R. cbn [bind] in R.
      destruct (read_bytes n c1) as [[y c2]| |] eqn:G2; try discriminate R. apply Ret_inj, pair_inj in R. destruct R as [_ <-]. rewrite (IH _ _ _ G2).
      unfold get_byte, read_current, rd in G. repeat match type of G with context [if ?b then _ else _] => destruct b end; try discriminate G; cbn [bind] in G; apply Ret_inj, pair_inj in G; destruct G as [_ <-]; reflexivity. }
    rewrite (K _ _ _ _ R). apply Ret_inj in E. now subst c. }
  destruct A' as [N C P Ff L]. unfold get_total_position. rewrite En in *.
  assert (zlen (skipn n (concat (b :: bs))) = zlen (concat (b :: bs)) - Z.of_nat n) as S1 by (unfold zlen in *; rewrite skipn_length; lia).
  rewrite L in S1. rewrite zlen_app, zlen_zskip in S1 by lia.
  assert (forall l, zlen (concat l) = fold_right Z.add 0 (map (@zlen Z) l)) as Kc by (induction l as [|x l IH]; [reflexivity|cbn [concat map fold_right]; rewrite zlen_app, IH; reflexivity]).
  rewrite <- Kc. pose proof (ztake_zskip (node_pos c') (b :: bs)) as S2. rewrite (zskip_cons_nth [] (b :: bs) (node_pos c')) in S2 by lia. rewrite <- C in S2.
  assert (zlen (concat (b :: bs)) = zlen (concat (ztake (node_pos c') (b :: bs))) + (zlen (current c') + zlen (concat (zskip (node_pos c' + 1) (b :: bs))))) as S3.
  { rewrite <- S2 at 1. rewrite concat_app, zlen_app. cbn [concat]. rewrite zlen_app. reflexivity. }
  rewrite wrap64_small; [lia|]. unfold two64. pose proof (zlen_nonneg (concat (ztake (node_pos c') (b :: bs)))). lia.
Qed.
Print Assumptions C35_position.

Example C35_case : exists c c', create_tile_buf [[1; 2]; [3]] = Ret c /\ read_bytes 5 c = Ret ([1; 2; 3; 0; 0], c').
Proof. eexists _, _. split; reflexivity. Qed.

(** ** Bits *)
Definition put_all (w : writer) (bs : list Z) : writer := fold_left put_bit bs w.
Fixpoint bits_of (n : nat) (v : Z) : list Z :=
  match n with O => [] | S n => (v / 2 ^ Z.of_nat n) mod 2 :: bits_of n v end.
Definition width (prev : Z) : nat := if prev =? 255 then 7 else 8.
Fixpoint unstuff (prev : Z) (l : list Z) : list Z :=
  match l with [] => [] | b :: l => bits_of (width prev) b ++ unstuff b l end.
Lemma width_range p : (7 <= width p <= 8)%nat.
Proof. unfold width. destruct (p =? 255); lia. Qed.

Lemma Reads_app c1 a c2 b c3 : Reads c1 a c2 -> Reads c2 b c3 -> Reads c1 (a ++ b) c3.
Proof. induction 1 as [|c x c' bs c2 G _ IH]; intros H; [exact H|]. cbn [app]. econstructor; [exact G|now apply IH]. Qed.

Definition set_bits (c : chain) (k : Z) : chain := Chain (node_pos c) (pos c) (nodes c) (current c) (tmp_byte c) (last_byte c) k.
Lemma ahead_bits k c l n : Ahead_gen k c l -> Ahead_gen k (set_bits c n) l.
Proof. intros []. constructor; assumption. Qed.
Lemma land_shift b k : 0 <= k -> Z.land (Z.shiftr b k) 1 = (b / 2 ^ k) mod 2.
Proof. intros. rewrite land_1, Z.shiftr_div_pow2 by lia. reflexivity. Qed.
Lemma read_in_byte j : forall k c, bits c = Z.of_nat k -> (j <= k)%nat -> Reads c (firstn j (bits_of k (tmp_byte c))) (set_bits c (Z.of_nat (k - j))).
Proof.
  induction j as [|j IH]; intros k c Hk Hj.
  - rewrite firstn_O, Nat.sub_0_r, <- Hk. destruct c; apply Reads_nil.
  - destruct k as [|k]; [lia|]. cbn [bits_of firstn]. apply (Reads_cons c _ (set_bits c (Z.of_nat k))).
    + unfold get_bit. replace (bits c =? 0) with false by lia. cbn [bind]. unfold set_bits. cbn [tmp_byte bits]. rewrite land_shift by lia. replace (bits c - 1) with (Z.of_nat k) by lia. reflexivity.
    + exact (IH k (set_bits c (Z.of_nat k)) eq_refl ltac:(lia)).
Qed.
Lemma read_byte_bits c b l j : bits c = 0 -> Ahead c (b :: l) -> (1 <= j <= width (last_byte c))%nat ->
  exists c', Reads c (firstn j (bits_of (width (last_byte c)) b)) c' /\ Ahead c' l /\ tmp_byte c' = b /\ last_byte c' = b /\ bits c' = Z.of_nat (width (last_byte c) - j).
Proof.
  intros B A Hj. destruct (get_byte_cons 0 c b l A) as (c1 & G & A1 & _ & Hl & _).
  set (c2 := Chain (node_pos c1) (pos c1) (nodes c1) (current c1) b b (Z.of_nat (width (last_byte c)))).
  assert (Ahead c2 l) as A2 by (destruct A1; constructor; assumption).
  pose proof (read_in_byte j (width (last_byte c)) c2 eq_refl (proj2 Hj)) as R.
  eexists. split; [|split; [apply ahead_bits; exact A2|split; [reflexivity|split; reflexivity]]].
  change (tmp_byte c2) with b in R. inversion R as [x E1 E2|x y c3 bs z G2 R2 E1 E2 E3].
  - exfalso. pose proof (width_range (last_byte c)). destruct j; [lia|]. destruct (width (last_byte c)); [lia|discriminate].
  - apply (Reads_cons c y c3); [|exact R2]. rewrite <- G2. unfold get_bit. rewrite B, G. cbn [bind Z.eqb]. rewrite Hl.
    replace (bits c2 =? 0) with false by (pose proof (width_range (last_byte c)); unfold c2; cbn [bits]; lia).
    cbn [bind]. unfold c2, width. destruct (last_byte c =? 255); reflexivity.
Qed.
Lemma last_snoc {A} (l : list A) x d : last (l ++ [x]) d = x.
Proof. apply last_last. Qed.
Lemma last_cons {A} (l : list A) x d : last (x :: l) d = last l x.
Proof. destruct l as [|y l]; [reflexivity|]. cbn [last]. revert y. induction l as [|z l IH]; intros y; [reflexivity|]. apply (IH z). Qed.
Lemma firstn_bits n v : firstn n (bits_of n v) = bits_of n v.
Proof. apply firstn_all2. assert (length (bits_of n v) = n) as -> by (induction n; cbn; auto). lia. Qed.
Lemma read_unstuff y : forall c r, bits c = 0 -> Ahead c (y ++ r) -> exists c', Reads c (unstuff (last_byte c) y) c' /\ Ahead c' r /\ bits c' = 0 /\ last_byte c' = last y (last_byte c).
Proof.
  induction y as [|b y IH]; intros c r B A; [exists c; split; [constructor|auto]|]. cbn [unstuff app] in *.
  destruct (read_byte_bits c b (y ++ r) (width (last_byte c)) B A) as (c1 & R & A1 & _ & L1 & B1); [pose proof (width_range (last_byte c)); lia|].
  rewrite firstn_bits in R. destruct (IH c1 r) as (c' & R' & A' & B' & L'); [lia|exact A1|]. exists c'. rewrite L1 in R'.
  split; [now apply (Reads_app _ _ c1)|]. split; [exact A'|]. split; [exact B'|]. now rewrite L', L1, last_cons.
Qed.

Lemma bits_firstn j : forall n v, (j <= n)%nat -> firstn j (bits_of n v) = bits_of j (v / 2 ^ Z.of_nat (n - j)).
Proof.
  induction j as [|j IH]; intros n v H; [reflexivity|]. destruct n as [|n]; [lia|]. cbn [bits_of firstn]. f_equal.
  - rewrite Z.div_div, <- Z.pow_add_r by lia. do 3 f_equal. lia.
  - rewrite IH by lia. reflexivity.
Qed.
Lemma bits_snoc n : forall q b, bit b -> bits_of (S n) (2 * q + b) = bits_of n q ++ [b].
Proof.
  induction n as [|n IH]; intros q b B.
  - cbn [bits_of app]. change (2 ^ Z.of_nat 0) with 1. f_equal. rewrite Z.div_1_r. destruct B; subst; lia.
  - change (bits_of (S (S n)) (2 * q + b)) with (((2 * q + b) / 2 ^ Z.of_nat (S n)) mod 2 :: bits_of (S n) (2 * q + b)). rewrite (IH q b B). cbn [bits_of app]. f_equal.
    replace (Z.of_nat (S n)) with (1 + Z.of_nat n) by lia. rewrite Z.pow_add_r by lia. rewrite <- Z.div_div by (try (apply Z.pow_pos_nonneg); lia). change (2 ^ 1) with 2.
    do 2 f_equal. destruct B; subst; lia.
Qed.
Lemma unstuff_snoc l : forall p b, unstuff p (l ++ [b]) = unstuff p l ++ bits_of (width (last l p)) b.
Proof.
  induction l as [|x l IH]; intros p b; [cbn [app unstuff last]; apply app_nil_r|]. cbn [app unstuff]. rewrite IH, app_assoc. now rewrite last_cons.
Qed.

Definition stuffed (p : Z) (l : list Z) : Prop := forall i, 0 <= i < zlen l -> 0 <= znth 0 l i < (if (if i =? 0 then p else znth 0 l (i - 1)) =? 255 then 128 else 256).
Lemma stuffed_snoc p l b : stuffed p l -> 0 <= b < (if last l p =? 255 then 128 else 256) -> stuffed p (l ++ [b]).
Proof.
  intros S B i Hi. rewrite zlen_app in Hi. change (zlen [b]) with 1 in Hi. destruct (Z_lt_le_dec i (zlen l)) as [H|H].
  - specialize (S i ltac:(lia)). rewrite znth_app_l by lia. destruct (Z.eqb_spec i 0); [exact S|]. rewrite znth_app_l by lia. exact S.
  - assert (i = zlen l) by lia. subst i. rewrite znth_app_r by lia. rewrite Z.sub_diag, znth_0. destruct (Z.eqb_spec (zlen l) 0) as [E|E]; [apply zlen_0 in E; subst; exact B|].
    rewrite znth_app_l by lia. replace (znth 0 l (zlen l - 1)) with (last l p); [exact B|]. clear - E. induction l as [|x l IH] using rev_ind; [easy|].
    rewrite last_last, zlen_app. change (zlen [x]) with 1. rewrite znth_app_r by lia. replace (zlen l + 1 - 1 - zlen l) with 0 by lia. reflexivity.
Qed.

Record WInv (w : writer) (bs : list Z) : Prop := {
  i_last : wlast w = last (wbuf w) 0;
  i_bits : 0 <= wbits w < Z.of_nat (width (wlast w));
  i_tmp : exists q, 0 <= q < 2 ^ (Z.of_nat (width (wlast w)) - wbits w) /\ wtmp w = q * 2 ^ wbits w /\
          unstuff 0 (wbuf w) ++ bits_of (width (wlast w) - Z.to_nat (wbits w)) q = bs;
  i_stuffed : stuffed 0 (wbuf w) }.

Lemma pow_width p k : 0 <= k <= Z.of_nat (width p) -> 2 ^ (Z.of_nat (width p) - k) * 2 ^ k = (if p =? 255 then 128 else 256).
Proof. intros H. rewrite <- Z.pow_add_r by lia. replace (Z.of_nat (width p) - k + k) with (Z.of_nat (width p)) by lia. unfold width. destruct (p =? 255); reflexivity. Qed.
Lemma put_bit_ok w bs b : WInv w bs -> bit b -> WInv (put_bit w b) (bs ++ [b]).
Proof.
  intros [L B (q & Hq & Ht & E) S] Hb.
  assert (forall buf lst k q, lst = last buf 0 -> 0 < k <= Z.of_nat (width lst) -> 0 <= q < 2 ^ (Z.of_nat (width lst) - k) -> stuffed 0 buf ->
    unstuff 0 buf ++ bits_of (width lst - Z.to_nat k) q = bs -> WInv (Writer buf ((q * 2 ^ k + Z.shiftl b (k - 1)) mod 256) lst (k - 1)) (bs ++ [b])) as K.
  { clear - Hb. intros buf lst k q L B Hq S E. constructor; cbn [wlast wbits wbuf wtmp]; auto; [lia|].
    assert (2 ^ k = 2 * 2 ^ (k - 1)) as Pk by (replace k with (1 + (k - 1)) at 1 by lia; apply Z.pow_add_r; lia).
    assert (2 ^ (Z.of_nat (width lst) - (k - 1)) = 2 * 2 ^ (Z.of_nat (width lst) - k)) as Pw by (replace (Z.of_nat (width lst) - (k - 1)) with (1 + (Z.of_nat (width lst) - k)) by lia; apply Z.pow_add_r; lia).
    pose proof (pow_width lst (k - 1) ltac:(lia)) as PW. assert (0 < 2 ^ (k - 1)) as P0 by (apply Z.pow_pos_nonneg; lia).
    exists (2 * q + b). assert (0 <= b <= 1) by (destruct Hb; lia). split; [lia|]. split.
    - rewrite Z.shiftl_mul_pow2 by lia. rewrite Pk. replace (q * (2 * 2 ^ (k - 1)) + b * 2 ^ (k - 1)) with ((2 * q + b) * 2 ^ (k - 1)) by ring. apply Z.mod_small.
      assert (2 * q + b <= 2 ^ (Z.of_nat (width lst) - (k - 1)) - 1) by lia. destruct (lst =? 255); nia.
    - replace (width lst - Z.to_nat (k - 1))%nat with (Datatypes.S (width lst - Z.to_nat k)) by lia. rewrite bits_snoc by exact Hb. rewrite app_assoc, E. reflexivity. }
  unfold put_bit. destruct (Z.eqb_spec (wbits w) 0) as [Z0|Z0].
  - cbn [wbits wbuf wtmp wlast]. rewrite Z0, Z.sub_0_r in *. change (2 ^ 0) with 1 in Ht. rewrite Z.mul_1_r in Ht. change (Z.to_nat 0) with 0%nat in E. rewrite Nat.sub_0_r in E.
    assert ((if wtmp w =? 255 then 7 else 8) = Z.of_nat (width (wtmp w))) as -> by (unfold width; destruct (wtmp w =? 255); reflexivity).
    apply (K (wbuf w ++ [wtmp w]) (wtmp w) (Z.of_nat (width (wtmp w))) 0).
    + now rewrite last_snoc.
    + pose proof (width_range (wtmp w)). lia.
    + rewrite Z.sub_diag. change (2 ^ 0) with 1. lia.
    + apply stuffed_snoc; [exact S|]. rewrite <- L, Ht. unfold width in Hq. destruct (wlast w =? 255); exact Hq.
    + rewrite unstuff_snoc, <- L, Ht, E, Nat2Z.id, Nat.sub_diag. cbn [bits_of]. apply app_nil_r.
  - rewrite Ht. apply K; auto. lia.
Qed.
Lemma new_ok : WInv new_writer [1].
Proof.
  constructor; cbn; [reflexivity|lia| |intros i; change (zlen (@nil Z)) with 0; lia]. exists 1. repeat split; lia.
Qed.
Lemma put_all_ok bs : Forall bit bs -> WInv (put_all new_writer bs) (1 :: bs).
Proof.
  assert (forall bs w a, WInv w a -> Forall bit bs -> WInv (put_all w bs) (a ++ bs)) as K; [|intros H; exact (K bs new_writer [1] new_ok H)].
  clear. induction bs as [|b bs IH]; intros w a I F; [rewrite app_nil_r; exact I|]. inversion F as [|b' bs' B F']; subst. cbn [put_all fold_left].
  replace (a ++ b :: bs) with ((a ++ [b]) ++ bs) by (rewrite <- app_assoc; reflexivity). apply IH; [now apply put_bit_ok|exact F'].
Qed.
Lemma pad_same n : forall i w, 0 <= i -> 0 <= wtmp w < 256 -> wbuf (pad n i w) = wbuf w /\ wtmp (pad n i w) = wtmp w.
Proof.
  induction n as [|n IH]; intros i w Hi Ht; [auto|]. cbn [pad]. destruct (Z.ltb_spec i (wbits w)); [|auto].
  assert (wbuf (put_bit w 0) = wbuf w /\ wtmp (put_bit w 0) = wtmp w) as [E1 E2].
  { unfold put_bit. replace (wbits w =? 0) with false by lia. cbn [wbuf wtmp]. split; [reflexivity|]. rewrite Z.shiftl_0_l, Z.add_0_r. apply Z.mod_small. lia. }
  destruct (IH (i + 1) (put_bit w 0)) as [E3 E4]; [lia|lia|]. rewrite E3, E4. auto.
Qed.
Lemma tmp_range w bs : WInv w bs -> 0 <= wtmp w < (if last (wbuf w) 0 =? 255 then 128 else 256).
Proof.
  intros [L B (q & Hq & Ht & E) S]. pose proof (pow_width (wlast w) (wbits w) ltac:(lia)) as P. rewrite <- L. assert (0 < 2 ^ wbits w) by (apply Z.pow_pos_nonneg; lia). rewrite Ht. destruct (wlast w =? 255); nia.
Qed.
Lemma flush_eq w bs e : WInv w bs -> flush w e = wbuf w ++ [wtmp w] ++ (if wtmp w =? 255 then [0] else []) ++ (if e then [255; 146] else []).
Proof. intros I. pose proof (tmp_range w bs I) as T. unfold flush. destruct (pad_same 9 0 w) as [-> ->]; [lia|destruct (last (wbuf w) 0 =? 255); lia|reflexivity]. Qed.

(** ** C32 *)

(** The writer starts every header with a 1; all bits then come back in order,
    and the end-of-header step leaves the reader at the next byte, or at the
    end-of-header marker when one was asked for. *)
Theorem C32_round_trip : forall bs eph rest c, Forall bit bs ->
  bits c = 0 -> last_byte c <> 255 -> Ahead c (flush (put_all new_writer bs) eph ++ rest) ->
  exists c' c'', Reads c (1 :: bs) c' /\ check_last_FF c' = Ret c'' /\
    Ahead (flush_bits c'') ((if eph then [255; 146] else []) ++ rest) /\ bits (flush_bits c'') = 0 /\ last_byte (flush_bits c'') <> 255.
Proof.
  intros bs eph rest c Hb B Lb A. pose proof (put_all_ok bs Hb) as I. set (w := put_all new_writer bs) in *. rewrite (flush_eq w _ eph I) in A. pose proof (tmp_range w _ I) as T.
  destruct I as [L Bw (q & Hq & Ht & E) S]. rewrite <- !app_assoc in A.
  assert (forall l, unstuff (last_byte c) l = unstuff 0 l) as U. { intros [|x l]; [reflexivity|]. cbn [unstuff]. unfold width. replace (last_byte c =? 255) with false by lia. reflexivity. }
  destruct (read_unstuff (wbuf w) c _ B A) as (c1 & R1 & A1 & B1 & L1). rewrite U in R1.
  assert (width (last_byte c1) = width (wlast w)) as W. { rewrite L1, L. destruct (wbuf w) as [|x l]; [cbn; unfold width; replace (last_byte c =? 255) with false by lia; reflexivity|rewrite !last_cons; reflexivity]. }
  cbn [app] in A1.
  destruct (read_byte_bits c1 _ _ (width (wlast w) - Z.to_nat (wbits w)) B1 A1) as (c2 & R2 & A2 & T2 & L2 & B2); [rewrite W; lia|].
  rewrite W in *. rewrite bits_firstn in R2 by lia.
  replace (width (wlast w) - (width (wlast w) - Z.to_nat (wbits w)))%nat with (Z.to_nat (wbits w)) in * by lia. rewrite Z2Nat.id in * by lia.
  assert (wtmp w / 2 ^ wbits w = q) as Dq by (rewrite Ht; apply Z.div_mul; apply Z.pow_nonzero; lia). rewrite Dq in R2.
  pose proof (Reads_app _ _ _ _ _ R1 R2) as R. rewrite E in R. exists c2. unfold check_last_FF. rewrite T2.
  destruct (Z.eqb_spec (wtmp w) 255) as [F|F].
  - assert (wbits w = 0) as Z0. { destruct (Z.eq_dec (wbits w) 0); [assumption|]. exfalso. rewrite Ht in F. replace (wbits w) with (1 + (wbits w - 1)) in F by lia. rewrite Z.pow_add_r in F by lia. change (2 ^ 1) with 2 in F. assert (q * (2 * 2 ^ (wbits w - 1)) = 2 * (q * 2 ^ (wbits w - 1))) by ring. lia. }
    cbn [app] in A2. destruct (read_byte_bits c2 0 _ 1 (eq_trans B2 Z0) A2) as (c3 & R3 & A3 & T3 & L3 & B3); [pose proof (width_range (last_byte c2)); lia|].
    assert (exists b, firstn 1 (bits_of (width (last_byte c2)) 0) = [b]) as (b & Eb). { pose proof (width_range (last_byte c2)). destruct (width (last_byte c2)); [lia|]. cbn. eexists. reflexivity. }
    rewrite Eb in R3. inversion R3 as [|x y z u v G R4]; subst. inversion R4; subst. exists c3. split; [exact R|]. rewrite G. cbn [bind]. split; [reflexivity|].
    split; [apply (ahead_bits 0 c3 _ 0 A3)|]. cbn [flush_bits bits last_byte]. split; [reflexivity|lia].
  - exists c2. split; [exact R|]. split; [reflexivity|]. split; [apply (ahead_bits 0 c2 _ 0 A2)|]. cbn [flush_bits bits last_byte]. split; [reflexivity|lia].
Qed.
Print Assumptions C32_round_trip.

(** No header contains, or ends in, the start of a marker. *)
Theorem C32_no_marker : forall bs, Forall bit bs ->
  no_marker (flush (put_all new_writer bs) false) /\ bytes_ok (flush (put_all new_writer bs) false) /\
  flush (put_all new_writer bs) true = flush (put_all new_writer bs) false ++ [255; 146].
Proof.
  intros bs Hb. pose proof (put_all_ok bs Hb) as I. set (w := put_all new_writer bs) in *. rewrite !(flush_eq w _ _ I). pose proof (tmp_range w _ I) as T. destruct I as [L Bw (q & Hq & Ht & E) S].
  assert (stuffed 0 (wbuf w ++ [wtmp w] ++ (if wtmp w =? 255 then [0] else []))) as St.
  { rewrite app_assoc. pose proof (stuffed_snoc 0 _ _ S T) as S1. destruct (wtmp w =? 255); [|rewrite app_nil_r; exact S1]. apply stuffed_snoc; [exact S1|]. clear; match goal with |- _ <= _ < (if ?b then _ else _) => destruct b end; lia. }
  assert (forall i, 0 <= i < zlen (wbuf w ++ [wtmp w] ++ (if wtmp w =? 255 then [0] else [])) -> znth 0 (wbuf w ++ [wtmp w] ++ (if wtmp w =? 255 then [0] else [])) i = 255 -> i + 1 < zlen (wbuf w ++ [wtmp w] ++ (if wtmp w =? 255 then [0] else []))) as En.
  { intros i Hi H. rewrite !zlen_app in *. change (zlen [wtmp w]) with 1 in *. destruct (Z.eqb_spec (wtmp w) 255) as [F|F].
    - change (zlen [0]) with 1 in *. destruct (Z.eq_dec i (zlen (wbuf w) + 1)) as [->|]; [|lia]. rewrite app_assoc, znth_app_r in H by (rewrite zlen_app; change (zlen [wtmp w]) with 1; lia). rewrite zlen_app in H. change (zlen [wtmp w]) with 1 in H. rewrite Z.sub_diag in H. discriminate H.
    - change (zlen (@nil Z)) with 0 in *. destruct (Z.eq_dec i (zlen (wbuf w))) as [->|]; [|lia]. rewrite znth_app_r in H by lia. rewrite Z.sub_diag in H. cbn [app znth] in H. contradiction. }
  rewrite !app_nil_r. split; [|split].
  - intros i Hi H. pose proof (En i Hi H) as N. split; [exact N|]. pose proof (St (i + 1) ltac:(lia)) as S1. replace (i + 1 =? 0) with false in S1 by lia. replace (i + 1 - 1) with i in S1 by lia. rewrite H in S1. change (255 =? 255) with true in S1. clear - S1. cbv iota in S1. lia.
  - apply Forall_forall. intros x Hx. apply (In_nth _ _ 0) in Hx. destruct Hx as (n & Hn & <-). specialize (St (Z.of_nat n)). unfold znth in St. rewrite Nat2Z.id in St. unfold byte_ok. assert (0 <= Z.of_nat n < zlen (wbuf w ++ [wtmp w] ++ (if wtmp w =? 255 then [0] else []))) as Q by (unfold zlen; lia). specialize (St Q).
    match type of St with _ <= _ < if ?b then _ else _ => destruct b end; lia.
  - rewrite <- !app_assoc. reflexivity.
Qed.
Print Assumptions C32_no_marker.

Example C32_case : flush (put_all new_writer [1; 1; 1; 1; 1; 1; 1]) false = [255; 0] /\
  flush (put_all new_writer [1; 1; 1; 1; 1; 1; 1; 1; 1; 0; 1]) true = [255; 104; 255; 146] /\
  exists c c', activate [[255; 104; 9]] = Ret c /\ Reads c [1; 1; 1; 1; 1; 1; 1; 1; 1; 1; 0; 1] c' /\ last_byte c <> 255 /\ bits c = 0.
Proof. split; [reflexivity|]. split; [reflexivity|]. eexists _, _. split; [reflexivity|]. split; [do 12 (eapply Reads_cons; [vm_compute; reflexivity|]); apply Reads_nil|]. split; [discriminate|reflexivity]. Qed.
