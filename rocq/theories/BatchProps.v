(** C84: gathering code-blocks into batches changes nothing. *)
From Verif Require Import Base BatchModel BatchSpec BatchProofs.
From Coq Require Import Permutation.

Section Any.
  Variable lane : Type.
  Variable setup : blk -> su.
  Variable start : blk -> lane.
  Variable program : bool -> Z -> Z -> Z -> list (lane -> option lane).
  Variable finish : blk -> su -> lane -> Z -> option bool.
  Variable ebcot : blk -> bool.
  Notation dec := (htj2k_decode lane setup start program finish).
  Notation alone := (alone lane setup start program finish ebcot).

  Lemma parts_good parts es : Forall2 (group_good lane setup start program finish ebcot) parts es ->
    Forall closed es /\ (In Failed (concat es) <-> exists b, In b (concat parts) /\ alone b <> Some true) /\
    (~ In Failed (concat es) -> stored (concat es) = map (fun b => (b, true)) (concat parts) /\ prepared (concat es) = filter k_ht (concat parts)).
  Proof.
    induction 1 as [|g e parts es (C & F & G) _ (IC & IF & IG)]; cbn [concat].
    - split; [constructor|]. split; [split; [intros []|intros (b & [] & _)]|now split].
    - split; [now constructor|]. split.
      + rewrite in_app_iff, F, IF. split.
        * intros [(b & B & N)|(b & B & N)]; exists b; rewrite in_app_iff; auto.
        * intros (b & B & N). rewrite in_app_iff in B. destruct B as [B|B]; [left|right]; eauto.
      + intros N. rewrite in_app_iff in N. destruct (G ltac:(tauto)) as [A1 A2]. destruct (IG ltac:(tauto)) as [B1 B2].
        rewrite stored_app, prepared_app, map_app, filter_app, A1, A2, B1, B2. now split.
  Qed.

  Lemma pool_good lanes BN tasks : (1 <= BN)%nat -> exists es, pool_tasks lane setup start program finish ebcot lanes BN tasks = Ret es /\
    Forall closed es /\ (In Failed (concat es) <-> exists b, In b tasks /\ alone b <> Some true) /\
    (~ In Failed (concat es) -> stored (concat es) = map (fun b => (b, true)) tasks /\ prepared (concat es) = filter k_ht tasks).
  Proof.
    intros HB. destruct (groups_good lane setup start program finish ebcot BN lanes HB (length tasks) [] tasks ltac:(lia)) as (gs & es & parts & E1 & E2 & <- & E4).
    exists es. unfold pool_tasks. change (zlen (@nil blk)) with 0 in E1. rewrite E1. cbn [bind app] in *. split; [exact E2|]. now apply parts_good.
  Qed.

  Lemma run_on_ok b0 : forall room rest, let m := run_on room b0 rest in
    (length m <= room)%nat /\ Forall (fun b => k_ht b = true) m /\ exists tl, rest = map Some m ++ tl.
  Proof.
    cbv zeta. induction room as [|room IH]; intros [|[nb|] rest]; cbn; try (split; [lia|split; [constructor|now eexists]]).
    destruct (k_ht nb && same_size nb b0) eqn:E; cbn; [|split; [lia|split; [constructor|now eexists]]].
    destruct (IH rest) as (A & B & tl & C). split; [lia|]. split; [constructor; [now apply andb_prop in E|exact B]|]. exists tl. now rewrite C at 1.
  Qed.
  Lemma present_some m tl : present (map Some m ++ tl) = m ++ present tl.
  Proof. induction m as [|b m IH]; [reflexivity|]. cbn. f_equal. exact IH. Qed.

  Lemma serial_good lanes BN : (1 <= BN)%nat -> forall fuel row, (length row <= fuel)%nat -> exists e t,
    serial_row lane setup start program finish ebcot fuel lanes BN row = Ret (e, t) /\
    (t = true <-> exists b, In (Some b) row /\ alone b <> Some true) /\
    (t = false -> stored e = map (fun b => (b, true)) (present row) /\ prepared e = filter k_ht (present row)).
  Proof.
    intros HB. induction fuel as [|fuel IH]; intros [|c rest] Hf; try (cbn in Hf; lia).
    1, 2: exists [], false; split; [reflexivity|]; split; [split; [discriminate|intros (b & [] & _)]|now split].
    cbn [serial_row]. destruct c as [b0|].
    2:{ destruct (IH rest ltac:(cbn in Hf; lia)) as (e & t & E & T & G). exists e, t. split; [exact E|]. split; [|exact G]. rewrite T.
        split; intros (b & B & N); exists b; (split; [|exact N]); [now right|destruct B as [B|B]; [discriminate B|exact B]]. }
    destruct (run_on_ok b0 (further lanes b0) rest) as (A & K & tl & Er). destruct (further_ok lane setup start program finish ebcot lanes b0) as [_ F0].
    set (m := run_on (further lanes b0) b0 rest) in *.
    assert (Sk : skipn (length m) rest = tl) by (rewrite Er, skipn_app, map_length, Nat.sub_diag, skipn_all2 by (rewrite map_length; lia); reflexivity).
    assert (Hin : forall b, In (Some b) (Some b0 :: rest) <-> In b (b0 :: m) \/ In (Some b) tl).
    { intros b. rewrite Er. cbn [In]. rewrite in_app_iff, in_map_iff. split.
      - intros [X|[(x & X & Y)|X]]; [injection X as ->; tauto|injection X as ->; tauto|tauto].
      - intros [[X|X]|X]; [left; congruence|right; left; eauto|tauto]. }
    destruct (IH tl) as (e' & t' & E' & T' & G'). { apply (f_equal (@length _)) in Er. rewrite app_length in Er. cbn in Hf. lia. }
    assert (Hp : present (Some b0 :: rest) = (b0 :: m) ++ present tl) by (rewrite Er; cbn [present flat_map app]; f_equal; apply present_some).
    rewrite Sk, Hp.
    assert (Core : exists e t, (if k_ht b0 then batch lane setup start program finish (S (length m)) BN (b0 :: m) else Ret (if ebcot b0 then ([Stored b0 true], false) else ([], true))) = Ret (e, t) /\
      (t || (k_ht b0 && existsb refused e) = true <-> exists b, In b (b0 :: m) /\ alone b <> Some true) /\
      (t || (k_ht b0 && existsb refused e) = false -> stored e = map (fun b => (b, true)) (b0 :: m) /\ prepared e = filter k_ht (b0 :: m))).
    { destruct (k_ht b0) eqn:H0.
      - assert (K' : Forall (fun b => k_ht b = true) (b0 :: m)) by now constructor.
        destruct (batch_whole lane setup start program finish ebcot BN (b0 :: m) (S (length m)) HB ltac:(cbn; lia)) as (e & t & E & _ & _ & Bad & Good).
        exists e, t. split; [exact E|]. rewrite <- (all_ht_alone lane setup start program finish ebcot _ K'), (all_ht _ K'). now split.
      - assert (M : m = []) by (rewrite (F0 eq_refl) in A; destruct m; [reflexivity|cbn in A; lia]). rewrite M. unfold BatchProofs.alone. destruct (ebcot b0) eqn:Eb.
        + exists [Stored b0 true], false. split; [reflexivity|]. cbn. rewrite H0. split; [split; [discriminate|]|now split]. intros (b & [<-|[]] & N). rewrite H0, Eb in N. congruence.
        + exists [], true. split; [reflexivity|]. cbn. split; [|discriminate]. split; [intros _|reflexivity]. exists b0. split; [now left|]. rewrite H0, Eb. discriminate. }
    destruct Core as (e & t & -> & Bad & Good). cbn [bind]. destruct (t || (k_ht b0 && existsb refused e)).
    - exists e, true. split; [reflexivity|]. split; [|discriminate]. split; [intros _|reflexivity]. destruct (proj1 Bad eq_refl) as (b & B & N). exists b. split; [apply Hin; now left|exact N].
    - rewrite E'. cbn [bind]. exists (e ++ e'), t'. split; [reflexivity|]. split.
      + rewrite T'. split; intros (b & B & N); exists b; (split; [|exact N]); [apply Hin; now right|]. apply Hin in B. destruct B as [B|B]; [|exact B].
        exfalso. assert (X : false = true) by (apply Bad; eauto). discriminate X.
      + intros Ht. destruct (Good eq_refl) as [S P]. destruct (G' Ht) as [S' P']. rewrite stored_app, prepared_app, map_app, filter_app, S, P, S', P'. now split.
  Qed.
End Any.

(** [htj2k_decode_batch] with any number of lanes: the same results in the same
    order, and an exception exactly when decoding the blocks one by one throws;
    each block is set up at most once, and once if nothing throws. *)
Theorem C84_batch : forall lane setup start program finish BN bs, (1 <= BN)%nat ->
  let one := one_by_one (htj2k_decode lane setup start program finish) bs in
  exists e t, batch lane setup start program finish (length bs) BN bs = Ret (e, t) /\ stored e = fst one /\ t = snd one /\
    exists rest, bs = prepared e ++ rest /\ (t = false -> rest = []).
Proof.
  intros lane setup start program finish BN bs HB. cbv zeta. destruct (batch_fine lane setup start program finish (fun _ => true) BN HB (length bs) bs ltac:(lia)) as (e & t & E & S & T & Q & _). exists e, t. auto.
Qed.
Print Assumptions C84_batch.

(** A strip decoded by the pool: any lanes, any interleaving of the tasks, the
    counter starting from the number of tasks.  Once as many tasks as there are
    have counted down, nothing is left to happen; a failure is recorded exactly
    when some code-block decoded alone is refused or throws; if none is recorded
    every code-block has been stored exactly once, with the decoder of its
    kind, and every HT code-block set up exactly once. *)
Theorem C84_pool : forall (lane : Type) setup start program finish (ebcot : blk -> bool) lanes BN tasks, (1 <= BN)%nat ->
  let alone (b : blk) := if k_ht b then htj2k_decode lane setup start program finish b else if ebcot b then Some true else None in
  exists es, pool_tasks lane setup start program finish ebcot lanes BN tasks = Ret es /\
    forall evs p q, shuffle es evs -> evs = p ++ q -> lefts p = length es ->
      q = [] /\ (In Failed p <-> exists b, In b tasks /\ alone b <> Some true) /\
      (~ In Failed p -> Permutation (stored p) (map (fun b => (b, true)) tasks) /\ Permutation (prepared p) (filter k_ht tasks)).
Proof.
  intros lane setup start program finish ebcot lanes BN tasks HB. cbv zeta. destruct (pool_good lane setup start program finish ebcot lanes BN tasks HB) as (es & E & C & F & G).
  exists es. split; [exact E|]. intros evs p q S Eq L. pose proof (waited es evs p q C S Eq L) as ->. rewrite app_nil_r in Eq. subst evs. split; [reflexivity|].
  pose proof (shuffle_perm _ _ S) as P. assert (Iff : In Failed p <-> In Failed (concat es)) by (split; apply Permutation_in; [exact P|symmetry; exact P]).
  split; [rewrite Iff; exact F|]. intros N. rewrite Iff in N. destruct (G N) as [<- <-]. split; now apply perm_flat.
Qed.
Print Assumptions C84_pool.

(** A row of code-blocks decoded without a pool. *)
Theorem C84_serial : forall (lane : Type) setup start program finish (ebcot : blk -> bool) lanes BN row, (1 <= BN)%nat ->
  let alone (b : blk) := if k_ht b then htj2k_decode lane setup start program finish b else if ebcot b then Some true else None in
  exists e t, serial_row lane setup start program finish ebcot (length row) lanes BN row = Ret (e, t) /\
    (t = true <-> exists b, In (Some b) row /\ alone b <> Some true) /\
    (t = false -> stored e = map (fun b => (b, true)) (present row) /\ prepared e = filter k_ht (present row)).
Proof. intros lane setup start program finish ebcot lanes BN row HB. cbv zeta. exact (serial_good lane setup start program finish ebcot lanes BN HB (length row) row ltac:(lia)). Qed.
Print Assumptions C84_serial.

(** Scratch space after any history of strips: the rows of a block are at
    least as long and as many as the block's (and, for the states, one more on
    each side), every cell lies in the pool and no cell belongs to two blocks or
    two places of one block. *)
Theorem C84_scratch : forall k cap before bs, Forall (fun b => 0 < k_w b /\ 0 < k_h b) bs ->
  let blk_at := znth (Blk 0 0 0 false) bs in
  let cell i x y := znth 0 (fst (place k 0 bs)) i + y * row_len k (blk_at i) + x in
  let has i x y := 0 <= i < zlen bs /\ 0 <= x < row_len k (blk_at i) /\ 0 <= y < rows_of k (blk_at i) in
  (forall i x y, has i x y -> 0 <= cell i x y < grow k cap (before ++ [bs])) /\
  (forall i x y i' x' y', has i x y -> has i' x' y' -> cell i x y = cell i' x' y' -> i = i' /\ x = x' /\ y = y') /\
  (forall i, 0 <= i < zlen bs -> match k with
     | Samples => k_w (blk_at i) <= row_len k (blk_at i) /\ k_h (blk_at i) <= rows_of k (blk_at i)
     | States => k_w (blk_at i) + 2 <= row_len k (blk_at i) /\ k_h (blk_at i) + 2 <= rows_of k (blk_at i)
     | Contexts => k_w (blk_at i) + 2 <= row_len k (blk_at i) /\ (k_h (blk_at i) + 3) / 4 + 2 <= rows_of k (blk_at i)
     end).
Proof.
  intros k cap before bs H. cbv zeta. destruct (place_ok k bs 0 H) as (_ & _ & I & J). pose proof (grow_last k bs before cap) as G.
  set (offs := fst (place k 0 bs)) in *. set (t := snd (place k 0 bs)) in *. clearbody offs t.
  assert (Bound : forall i x y, 0 <= i < zlen bs -> 0 <= x < row_len k (znth (Blk 0 0 0 false) bs i) -> 0 <= y < rows_of k (znth (Blk 0 0 0 false) bs i) ->
    0 <= y * row_len k (znth (Blk 0 0 0 false) bs i) + x < row_len k (znth (Blk 0 0 0 false) bs i) * rows_of k (znth (Blk 0 0 0 false) bs i)).
  { intros i x y _ Hx Hy. set (w := row_len _ _) in *. set (h := rows_of _ _) in *. clearbody w h. clear - Hx Hy. nia. }
  split; [|split].
  - intros i x y (Hi & Hx & Hy). specialize (I i Hi). specialize (Bound i x y Hi Hx Hy). lia.
  - intros i x y i' x' y' (Hi & Hx & Hy) (Hi' & Hx' & Hy') E. pose proof (Bound i x y Hi Hx Hy) as B. pose proof (Bound i' x' y' Hi' Hx' Hy') as B'.
    assert (i = i') as <-. { destruct (Z.lt_trichotomy i i') as [L|[L|L]]; [|exact L|]; exfalso; [specialize (J i i' ltac:(lia) ltac:(lia))|specialize (J i' i ltac:(lia) ltac:(lia))]; lia. }
    split; [reflexivity|]. set (w := row_len _ _) in *. clearbody w. assert (Ey : y * w + x = y' * w + x') by lia. clear - Hx Hx' Ey.
    assert (y = y') by nia. subst. lia.
  - intros i Hi. pose proof (round8_ge (k_w (znth (Blk 0 0 0 false) bs i))). pose proof (round8_ge (k_h (znth (Blk 0 0 0 false) bs i))). destruct k; cbn [row_len rows_of]; unfold round8 in *; lia.
Qed.
Print Assumptions C84_scratch.

(** Scratch space of a run of the serial path: its blocks have the size of the
    first, which the rows are made for; every cell lies in the buffer and no cell
    belongs to two blocks or two places of one block. *)
Theorem C84_serial_scratch : forall k cap lanes b0 rest, 0 < k_w b0 -> 0 < k_h b0 ->
  let run := b0 :: run_on (further lanes b0) b0 rest in
  let has i x y := 0 <= i < zlen run /\ 0 <= x < row_len k b0 /\ 0 <= y < rows_of k b0 in
  (forall b, In b run -> k_w b = k_w b0 /\ k_h b = k_h b0) /\ zlen run <= 8 /\
  (forall i x y, has i x y -> 0 <= serial_cell k b0 i x y < serial_cap k cap run) /\
  (forall i x y i' x' y', has i x y -> has i' x' y' -> serial_cell k b0 i x y = serial_cell k b0 i' x' y' -> i = i' /\ x = x' /\ y = y').
Proof.
  intros k cap lanes b0 rest Hw Hh. cbv zeta.
  assert (Sz : forall room rest b, In b (run_on room b0 rest) -> k_w b = k_w b0 /\ k_h b = k_h b0).
  { clear. induction room as [|room IH]; intros [|[nb|] rest] b H; cbn in H; try contradiction. destruct (k_ht nb && same_size nb b0) eqn:E; [|contradiction].
    destruct H as [<-|H]; [|exact (IH rest b H)]. unfold same_size in E. lia. }
  split; [intros b [<-|H]; [now split|exact (Sz _ _ b H)]|]. split.
  { assert (A : forall room rest, (length (run_on room b0 rest) <= room)%nat).
    { clear. induction room as [|room IH]; intros [|[nb|] rest]; cbn; try lia. destruct (k_ht nb && same_size nb b0); cbn; [specialize (IH rest)|]; lia. }
    specialize (A (further lanes b0) rest). assert (F : (further lanes b0 <= 7)%nat) by (unfold further; destruct (k_ht b0 && (1 <? lanes)); [destruct (lanes <? 8) eqn:E|]; lia).
    unfold zlen. cbn [length]. lia. }
  unfold serial_cell, serial_cap. set (n := zlen _). clearbody n. set (w := row_len k b0). set (h := rows_of k b0). clearbody w h. clear. split.
  - intros i x y (Hi & Hx & Hy). assert (0 <= y * w + x < w * h) by nia. assert (0 <= i * (w * h) /\ (i + 1) * (w * h) <= n * (w * h)) by nia. destruct (cap <? w * h * n) eqn:E; lia.
  - intros i x y i' x' y' (Hi & Hx & Hy) (Hi' & Hx' & Hy') E. assert (B : 0 <= y * w + x < w * h) by nia. assert (B' : 0 <= y' * w + x' < w * h) by nia.
    assert (i = i') as <- by nia. split; [reflexivity|]. assert (Ey : y * w + x = y' * w + x') by lia. assert (y = y') as <- by nia. split; [lia|reflexivity].
Qed.
Print Assumptions C84_serial_scratch.

(** Four HT blocks, one of them of another size, and an EBCOT block, with two
    lanes; a lane counts its iterations, and lanes of block 3 throw. *)
Definition c84_blk (i w : Z) (ht : bool) := Blk i w 8 ht.
Definition c84_prog (skip : bool) (qw qh s : Z) : list (Z * Z -> option (Z * Z)) :=
  repeat (fun l => if (fst l =? 3) && (snd l =? 5) then None else Some (fst l, snd l + 1)) (Z.to_nat (qw * qh)).
Example C84_case : let su b := Su true false 1 in let st b := (k_id b, 0) in
  let fin b u l s := Some (snd l =? half (k_w b) * half (k_h b)) in
  let a := c84_blk 0 8 true in let b := c84_blk 1 8 true in let c := c84_blk 2 4 true in let d := c84_blk 3 8 true in let e := c84_blk 4 8 false in
  batch (Z * Z) su st c84_prog fin 3 2 [a; b; c] = Ret ([Prepared a; Prepared b; Stored a true; Stored b true; Prepared c; Stored c true], false) /\
  batch (Z * Z) su st c84_prog fin 3 2 [b; d; a] = Ret ([Prepared b; Prepared d; Stored b true], true) /\
  pool_tasks (Z * Z) su st c84_prog fin (fun _ => true) 2 2 [a; b; c; e; d] =
    Ret [[Prepared a; Prepared b; Stored a true; Stored b true; Left]; [Prepared c; Stored c true; Left]; [Stored e true; Left]; [Prepared d; Failed; Left]] /\
  serial_row (Z * Z) su st c84_prog fin (fun _ => true) 5 2 2 [Some a; None; Some b; Some e; Some c] =
    Ret ([Prepared a; Stored a true; Prepared b; Stored b true; Stored e true; Prepared c; Stored c true], false) /\
  shuffle [[Prepared a; Left]; [Stored e true; Left]] [Stored e true; Prepared a; Left; Left] /\
  place States 0 [a; c; e] = ([0; 100; 200], 300).
Proof.
  cbv zeta. split; [vm_compute; reflexivity|]. split; [vm_compute; reflexivity|]. split; [vm_compute; reflexivity|]. split; [vm_compute; reflexivity|]. split; [|reflexivity].
  apply (sh_step [[Prepared (c84_blk 0 8 true); Left]] _ _ []). cbn [app]. apply (sh_step [] _ _ [[Left]]). apply (sh_step [] _ _ [[Left]]). apply (sh_step [[]] _ _ []). apply sh_end. repeat constructor.
Qed.
