(** C82: decoding a window. *)
From Verif Require Import Base BaseLemmas DwtModel StreamModel PyramidModel WindowModel WindowSpec WindowMain.

(** Any sample arithmetic with a neutral zero, any transformation, any number
    of levels, any sub-band contents, any position and size of the component,
    whatever the ring slots held before ([old], [old']): restricting the
    levels to columns [lo, hi) and to rows from [row_lo] on leaves every sample
    of that window as the unrestricted decoding has it. *)
Theorem C82_window : forall T (A : arith T) wt use_i32 p u0 u1 v0 v1 lo hi row_lo row_hi old old',
  sane A -> 0 <= u0 <= u1 -> 0 <= v0 <= v1 -> u1 - u0 <= 2 ^ 31 - 16 ->
  exists l l', window_rows A wt use_i32 p u0 u1 v0 v1 None None old = Ret l
    /\ window_rows A wt use_i32 p u0 u1 v0 v1 (Some (lo, hi)) (row_span v1 row_lo row_hi) old' = Ret l'
    /\ agree_on (fun c r => lo <= c < hi /\ row_lo <= r) u0 u1 v0 v1 l l'.
Proof.
  intros T A wt use_i32 p u0 u1 v0 v1 lo hi row_lo row_hi old old' S Hu Hv Hm.
  destruct (window_agree A wt use_i32 S p u0 u1 v0 v1 (Some (lo, hi)) (row_span v1 row_lo row_hi) old old' Hu Hv Hm)
    as (l & l' & E & E' & L1 & L2 & Ag).
  exists l, l'. split; [exact E |]. split; [exact E' |]. split; [exact L1 |]. split; [exact L2 |].
  intros r c Hr Hc [H1 H2]. apply Ag; auto. split; [exact H1 |]. cbn.
  destruct (Z.leb_spec v1 row_lo); lia.
Qed.
Print Assumptions C82_window.

(** The frames of a decoder, some of which keep their buffers: [qs] were
    decoded before [q].  Proved when the last request gives the end of its
    columns as a number below 2^31 - 1, or when no request ever narrowed the
    columns; the other cases are refuted below.  Rows of a component
    subsampled by [yr] count from row_lo / yr. *)
Theorem C82_frames_partial : forall T (A : arith T) wt use_i32 p u0 u1 v0 v1 yr qs q old old',
  sane A -> 0 <= u0 <= u1 -> 0 <= v0 <= v1 -> u1 - u0 <= 2 ^ 31 - 16 -> 0 < yr ->
  well_formed q -> q_col_hi q < 2 ^ 31 - 1 \/ (whole_width q /\ Forall whole_width qs) ->
  let '(cw, rw, _) := frame_of yr v1 q (after yr v1 None qs) in
  exists l l', window_rows A wt use_i32 p u0 u1 v0 v1 None None old = Ret l
    /\ window_rows A wt use_i32 p u0 u1 v0 v1 cw rw old' = Ret l'
    /\ agree_on (fun c r => q_col_lo q <= c < q_col_hi q /\ q_row_lo q / yr <= r) u0 u1 v0 v1 l l'.
Proof.
  intros T A wt use_i32 p u0 u1 v0 v1 yr qs q old old' S Hu Hv Hm Hy W Hq.
  destruct (frame_of yr v1 q (after yr v1 None qs)) as [[cw rw] k] eqn:F.
  destruct (window_agree A wt use_i32 S p u0 u1 v0 v1 cw rw old old' Hu Hv Hm) as (l & l' & E & E' & L1 & L2 & Ag).
  exists l, l'. split; [exact E |]. split; [exact E' |]. split; [exact L1 |]. split; [exact L2 |].
  intros r c Hr Hc [H1 H2]. apply Ag; auto. unfold frame_of, frame in F. inversion F as [[Fc Fr Fk]]. clear Fk F. split.
  - destruct Hq as [Hq | [Wq Ws]].
    + change (2 ^ 31) with 2147483648 in Hq. unfold uint_max. change (2 ^ 32 - 1) with 4294967295.
      destruct (Z.eqb_spec (q_col_hi q) 4294967295); [lia |]. cbn [negb]. rewrite Bool.orb_true_r.
      destruct (after yr v1 None qs); cbn [inside]; [| exact Logic.I]. unfold to_i32.
      change (2 ^ 31) with 2147483648. destruct (Z.ltb_spec (q_col_lo q) 2147483648), (Z.ltb_spec (q_col_hi q) 2147483648); lia.
    + assert (K : after yr v1 None qs = None \/ after yr v1 None qs = Some None).
      { clear - Ws. unfold after. assert (G : forall s, s = None \/ s = Some None ->
          fold_left (fun s q => snd (frame_of yr v1 q s)) qs s = None \/ fold_left (fun s q => snd (frame_of yr v1 q s)) qs s = Some None).
        { induction Ws as [| q qs [W1 W2] Ws IH]; intros s Hs; [exact Hs |]. cbn [fold_left]. apply IH.
          unfold frame_of, frame. rewrite W1, W2, !Z.eqb_refl. cbn [negb orb snd].
          destruct (q_persist q); [right | now left]. now destruct Hs as [-> | ->]. }
        apply G. now left. }
      destruct Wq as [W1 W2]. rewrite W1, W2, !Z.eqb_refl. cbn [negb orb].
      destruct K as [-> | ->]; exact Logic.I.
  - destruct (Z.eqb_spec (q_row_lo q) 0); [exact Logic.I |]. cbn [row_span below].
    destruct (Z.leb_spec v1 (q_row_lo q / yr)); lia.
Qed.
Print Assumptions C82_frames_partial.

(** ** Cases.  5/3 on integers; a 9/7-shaped filter with integer coefficients. *)
Definition ints : arith Z :=
  {| zero := 0; zt := fun x => x =? 0;
     hs := fun low _ => if low then inv_lp else inv_hp; vs := fun low _ => if low then inv_lp else inv_hp;
     hh := fun x => Z.shiftr x 1; hv := fun x => Z.shiftr x 1 |}.
Definition four : arith Z :=
  let f := fun (low : bool) (k : nat) t a b => t - (if low then 3 else 2) * (1 + Z.of_nat k) * (a + b) in
  {| zero := 0; zt := fun x => x =? 0; hs := f; vs := f; hh := fun x => x; hv := fun x => x |}.
Example sane_ints : sane ints.
Proof.
  split; [intros x H; now apply Z.eqb_eq |]. split; [| split].
  - intros [|] k t; cbn; unfold inv_lp, inv_hp; cbn; lia.
  - intros [|] k t; cbn; unfold inv_lp, inv_hp; cbn; lia.
  - split; reflexivity.
Qed.
Example sane_four : sane four.
Proof. split; [intros x H; now apply Z.eqb_eq |]. split; [| split]; [intros; cbn; lia | intros; cbn; lia | now split]. Qed.

Definition noise (s : Z) : Z -> Z -> Z := fun r k => ((r * 7 + k * 13 + s) * (k + 3)) mod 31 - 15.
Definition two_levels : bands Z := WFiner (noise 1) (noise 2) (noise 3) (WFiner (noise 4) (noise 5) (noise 6) (WCoarse (noise 7))).
Definition one_level : bands Z := WFiner (noise 1) (noise 2) (noise 3) (WCoarse (noise 7)).
(** Columns of the rows, as numbers. *)
Definition shown (w : Z) (o : out (list (option (Z -> Z)))) : out (list (list Z)) :=
  let* l := o in Ret (map (fun x => match x with Some f => map f (zseq w) | None => [] end) l).
Definition junk : nat -> Z -> Z -> Z := fun i r k => 1000 + Z.of_nat i + r + k.

Definition part (a b : Z) (o : out (list (list Z))) : out (list (list Z)) :=
  let* l := o in Ret (map (fun r => ztake (b - a) (zskip a r)) l).
(** Columns 20 to 23 of 44 from column 1, two levels: the window agrees, the
    rows do not. *)
Example C82_case :
  let full A wt := shown 43 (window_rows A wt false two_levels 1 44 0 6 None None (fun _ _ _ => 0)) in
  let win A wt := shown 43 (window_rows A wt false two_levels 1 44 0 6 (Some (20, 24)) (row_span 6 0 6) junk) in
  part 19 23 (win ints 1) = part 19 23 (full ints 1) /\ win ints 1 <> full ints 1
  /\ part 19 23 (win four 0) = part 19 23 (full four 0) /\ win four 0 <> full four 0.
Proof. vm_compute. split; [reflexivity |]. split; [discriminate |]. split; [reflexivity | discriminate]. Qed.

(** A request for all columns after one for a few, on a decoder that keeps
    its buffers: the old range stays in force. *)
Definition ask (lo hi : Z) : request := {| q_persist := true; q_col_lo := lo; q_col_hi := hi; q_row_lo := 0; q_row_hi := uint_max |}.
Theorem C82_stale_window_refuted : exists qs q, Forall well_formed (q :: qs) /\ whole_width q /\
  let '(cw, rw, _) := frame_of 1 4 q (after 1 4 None qs) in
  exists l l', shown 24 (window_rows ints 1 false one_level 0 24 0 4 None None (fun _ _ _ => 0)) = Ret l
    /\ shown 24 (window_rows ints 1 false one_level 0 24 0 4 cw rw (fun _ _ _ => 0)) = Ret l' /\ l <> l'.
Proof.
  exists [ask 0 uint_max; ask 0 4], (ask 0 uint_max). split; [repeat constructor; vm_compute; congruence |].
  split; [split; reflexivity |]. vm_compute. do 2 eexists. split; [reflexivity |]. split; [reflexivity | discriminate].
Qed.
Print Assumptions C82_stale_window_refuted.

(** "From column 1 on", with the default as the end: the end becomes -1, and
    sample 12, say, is wrong. *)
Theorem C82_open_window_refuted : exists qs q, Forall well_formed (q :: qs) /\ q_col_lo q <= 12 < q_col_hi q /\
  let '(cw, rw, _) := frame_of 1 4 q (after 1 4 None qs) in
  exists l l', part 12 13 (shown 24 (window_rows ints 1 false one_level 0 24 0 4 None None (fun _ _ _ => 0))) = Ret l
    /\ part 12 13 (shown 24 (window_rows ints 1 false one_level 0 24 0 4 cw rw (fun _ _ _ => 0))) = Ret l' /\ l <> l'.
Proof.
  exists [ask 0 uint_max], (ask 1 uint_max). split; [repeat constructor; vm_compute; congruence |].
  split; [vm_compute; split; congruence |]. vm_compute. do 2 eexists. split; [reflexivity |]. split; [reflexivity | discriminate].
Qed.
Print Assumptions C82_open_window_refuted.

(** A component with every second column: columns [16, 20) of the image are
    its columns [8, 10), but its levels get [16, 20) too. *)
Theorem C82_subsampled_refuted : exists qs q, Forall well_formed (q :: qs) /\
  q_col_lo q <= 2 * 8 < q_col_hi q /\ q_col_hi q <= 24 /\
  let '(cw, rw, _) := frame_of 1 4 q (after 1 4 None qs) in
  exists l l', part 8 9 (shown 12 (window_rows ints 1 false one_level 0 12 0 4 None None (fun _ _ _ => 0))) = Ret l
    /\ part 8 9 (shown 12 (window_rows ints 1 false one_level 0 12 0 4 cw rw (fun _ _ _ => 0))) = Ret l' /\ l <> l'.
Proof.
  exists [ask 0 uint_max], (ask 16 20). split; [repeat constructor; vm_compute; congruence |].
  split; [vm_compute; split; congruence |]. split; [vm_compute; congruence |].
  vm_compute. do 2 eexists. split; [reflexivity |]. split; [reflexivity | discriminate].
Qed.
Print Assumptions C82_subsampled_refuted.

(** An image that starts at column 12 of its canvas: entries [0, 4) of the
    rows delivered are columns [12, 16); a range of [0, 4) misses them. *)
Theorem C82_offset_refuted : exists qs q, Forall well_formed (q :: qs) /\ q_col_lo q <= 1 < q_col_hi q /\
  let '(cw, rw, _) := frame_of 1 4 q (after 1 4 None qs) in
  exists l l', part 1 2 (shown 24 (window_rows ints 1 false one_level 12 36 0 4 None None (fun _ _ _ => 0))) = Ret l
    /\ part 1 2 (shown 24 (window_rows ints 1 false one_level 12 36 0 4 cw rw (fun _ _ _ => 0))) = Ret l' /\ l <> l'.
Proof.
  exists [ask 0 uint_max], (ask 0 4). split; [repeat constructor; vm_compute; congruence |].
  split; [vm_compute; split; congruence |]. vm_compute. do 2 eexists. split; [reflexivity |]. split; [reflexivity | discriminate].
Qed.
Print Assumptions C82_offset_refuted.
