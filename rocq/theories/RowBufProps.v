(** The row buffer hands out the rows of its subband (C81). *)
From Verif Require Import Base BaseLemmas PrecinctModel PrecinctSpec GeoModel GeoSpec OutModel RowBufModel RowBufSpec RowBufProofs RowBufInv RowBufGeo.

(** Whatever rows were asked for, in whatever order, over however many frames,
    and however the pool's workers were scheduled: a row can be asked for, no
    store is outside the buffer, and the answer is an exception or a pointer to
    the row, which stays right while the pool decodes the next strip.
    Missing: subbands that do not fit the strips and frames that store a row of
    another code-block, for which the claim is false (refuted below). *)
Theorem C81_rows_partial : forall B many (ok : frame -> Prop) F s y,
  band_ok B -> fits B -> (forall G, ok G -> frame_ok B G) ->
  history B many ok F s -> y0 (sb_pos B) <= y < y1 (sb_pos B) ->
  (exists r, row_ptr B many F s y r) /\
  forall r, row_ptr B many F s y r -> exists o s', r = Ret (o, s') /\
    forall p, o = Some p -> forall s'', pool_star B s' s'' -> row_is B F s'' p y.
Proof.
  intros B many ok F s y OK FIT Hok H Hy. destruct (history_inv B many OK FIT ok F s Hok H) as [HF Hi].
  split; [exact (row_can B many OK FIT F s y (Hok F HF) Hi Hy)|].
  intros r R. destruct (row_spec B many OK FIT F s y r (Hok F HF) Hi Hy R) as (o & s' & -> & Q & _).
  exists o, s'. split; [reflexivity|]. intros p -> s'' P. destruct Q as (I1 & Held & Hs & ->).
  destruct (inv_star B OK F s' s'' I1 P) as [I2 W].
  destruct (wk_same _ _ _ _ W) as (S0 & S1 & R0 & Rg & _).
  assert (E : address B s' y = address B s'' y) by (unfold address; congruence). rewrite E.
  apply (held_row B OK); [|lia]. destruct (i_strip _ _ _ I2) as [[N _]|Held2]; [|exact Held2].
  destruct Held as ((n & Hn & E1 & E2 & _) & _). pose proof (bo_cbh B OK). pose proof (bo_y B OK). unfold top in *. nia.
Qed.
Print Assumptions C81_rows_partial.

(** If no code-block of any frame is rejected, no row is refused.  Missing: a
    frame without rejected code-blocks after one that had some (refuted
    below). *)
Theorem C81_clean_partial : forall B many (ok : frame -> Prop) F s y r,
  band_ok B -> fits B -> (forall G, ok G -> frame_ok B G /\ clean B G) ->
  history B many ok F s -> y0 (sb_pos B) <= y < y1 (sb_pos B) -> row_ptr B many F s y r ->
  exists p s', r = Ret (Some p, s').
Proof.
  intros B many ok F s y r OK FIT Hok H Hy R.
  assert (Hok' : forall G, ok G -> frame_ok B G) by (intros G HG; exact (proj1 (Hok G HG))).
  destruct (history_inv B many OK FIT ok F s Hok' H) as [HF Hi]. pose proof (history_flags B many OK FIT ok F s Hok H) as Fl.
  destruct (row_spec B many OK FIT F s y r (Hok' F HF) Hi Hy R) as (o & s' & -> & _ & Q).
  destruct (Q (proj2 (Hok F HF)) Fl) as [_ N]. destruct o as [p|]; [|congruence]. exists p, s'. reflexivity.
Qed.
Print Assumptions C81_clean_partial.

(** Workers never store outside the buffer, while a task is left some worker
    can go on, and the next frame can be started at any time, after an
    exception too. *)
Theorem C81_pool_partial : forall B many (ok : frame -> Prop) F s,
  band_ok B -> fits B -> (forall G, ok G -> frame_ok B G) -> history B many ok F s ->
  (forall r, pool1 B s r -> exists s', r = Ret s') /\
  (tasks s <> [] -> exists s', pool1 B s (Ret s')) /\
  (forall r, next_frame B s r -> exists s', r = Ret s') /\ (exists r, next_frame B s r) /\
  forall y s1, y0 (sb_pos B) <= y < y1 (sb_pos B) -> row_ptr B many F s y (Ret (None, s1)) ->
    (forall r, next_frame B s1 r -> exists s', r = Ret s') /\ exists r, next_frame B s1 r.
Proof.
  intros B many ok F s OK FIT Hok H. destruct (history_inv B many OK FIT ok F s Hok H) as [HF Hi].
  pose proof (pre_lo B OK s (i_halves _ _ _ Hi)) as Lo. split; [|split; [|split; [|split]]].
  - intros r P. destruct (inv_pool B OK F s r Hi P) as (s' & -> & _). exists s'. reflexivity.
  - intros T. exact (pool_can B (pre s) Lo s (i_pend _ _ _ Hi) T).
  - intros r N. destruct (next_spec B OK s r (pre s) Lo (i_pend _ _ _ Hi) (i_cache _ _ _ Hi) N) as (s' & -> & _).
    exists s'. reflexivity.
  - destruct (wait_ends B (pre s) Lo s (i_pend _ _ _ Hi)) as (w & W). eexists. exists w. split; [exact W|reflexivity].
  - intros y s1 Hy R. destruct (row_spec B many OK FIT F s y _ (Hok F HF) Hi Hy R) as (o & s2 & E & Q & _).
    injection E as <- <-. destruct Q as [T Hc]. split.
    + intros r N. pose proof (half_pos B OK).
      destruct (next_spec B OK s1 r 0 ltac:(lia) ltac:(unfold pend; rewrite T; intros w []) Hc N) as (s' & -> & _). exists s'. reflexivity.
    + eexists. exists (Ret s1). split; [apply wait_done, T|reflexivity].
Qed.
Print Assumptions C81_pool_partial.

(** The subbands the decoder makes are such, if they start at a multiple of
    the code-block height or lie between two multiples, and if precincts are
    not lower than code-blocks. *)
Theorem C81_geometry : forall NL r b g lx ly cx cy,
  let ax := x_axis NL r b g lx cx in
  let ay := y_axis NL r b g ly cy in
  axis_ok ax -> axis_ok ay -> band_exists r b -> precincts ax * precincts ay < 2 ^ 32 ->
  fst (band_span ax) < snd (band_span ax) -> fst (band_span ay) < snd (band_span ay) ->
  exists B, make_band NL r b g lx ly (2 ^ cx) (2 ^ cy) = ret B /\
    sb_pos B = Reg (fst (band_span ax)) (fst (band_span ay)) (snd (band_span ax)) (snd (band_span ay)) /\
    band_ok B /\ (aligned ay -> fits B) /\
    (aligned ay -> no_thin ay -> forall F, fails_inside B F -> frame_ok B F).
Proof.
  intros NL r b g lx ly cx cy ax ay Ox Oy Hb Hc Nx Ny. exists (the_band NL r b g lx ly cx cy).
  split; [apply make_exact; assumption|]. split; [reflexivity|]. split; [apply the_band_ok; assumption|].
  split; [apply the_band_fits; assumption|]. intros Al Nt F. apply the_frame_ok; assumption.
Qed.
Print Assumptions C81_geometry.

(** *** A case: 20 x 10 coefficients, code-blocks of 4 x 4, two frames *)
Definition d_g : region := Reg 0 0 40 20.
Definition d_frame : frame := fun k =>
  if x0 (cb_pos k) =? 4 then Empty else Good (fun i j => 100 * i + j + y0 (cb_pos k)) (Some (fun _ => 55)).

Example C81_case : exists B s p s', make_band 1 1 1 d_g 15 15 (2 ^ 2) (2 ^ 2) = ret B /\ band_ok B /\ fits B /\
  frame_ok B d_frame /\ clean B d_frame /\ sb_pos B = Reg 0 0 20 10 /\
  history B true (fun G => G = d_frame) d_frame s /\ row_ptr B true d_frame s 9 (Ret (Some p, s')) /\
  row_is B d_frame s' p 9 /\ cells s' (p + 2) = 110 /\ cells s' (p + 5) = 0.
Proof.
  destruct (C81_geometry 1 1 1 d_g 15 15 2 2) as (B & E & P & OK & FIT & FOK).
  { constructor; cbn; lia. } { constructor; cbn; lia. } { right; lia. } { vm_compute. reflexivity. }
  { vm_compute. reflexivity. } { vm_compute. reflexivity. }
  assert (Al : aligned (y_axis 1 1 1 d_g 15 2)) by (left; vm_compute; reflexivity).
  assert (Nt : no_thin (y_axis 1 1 1 d_g 15 2)) by (left; vm_compute; discriminate).
  specialize (FIT Al).
  assert (Nb : forall k, is_bad (d_frame k) = false) by (intros k; unfold d_frame; destruct (x0 (cb_pos k) =? 4); reflexivity).
  assert (Fi : fails_inside B d_frame) by (intros k l i j v _ Ek; pose proof (Nb k) as X; rewrite Ek in X; discriminate).
  specialize (FOK Al Nt d_frame Fi).
  assert (Cl : clean B d_frame) by (intros k _; apply Nb).
  assert (Hok : forall G, G = d_frame -> frame_ok B G /\ clean B G) by (intros G ->; auto).
  assert (Hok' : forall G, G = d_frame -> frame_ok B G) by (intros G ->; auto).
  assert (Pos : y0 (sb_pos B) = 0 /\ y1 (sb_pos B) = 10) by (rewrite P; split; vm_compute; reflexivity). destruct Pos as [Y0 Y1].
  pose (ok := fun G => G = d_frame).
  assert (Go : forall s y, history B true ok d_frame s -> 0 <= y < 10 -> exists p s', row_ptr B true d_frame s y (Ret (Some p, s')) /\ row_is B d_frame s' p y).
  { intros s y H Hy. destruct (C81_rows_partial B true ok d_frame s y OK FIT Hok' H ltac:(lia)) as [(r & R) X].
    destruct (C81_clean_partial B true ok d_frame s y r OK FIT Hok H ltac:(lia) R) as (p & s' & ->). exists p, s'. split; [exact R|].
    destruct (X _ R) as (o & s2 & Er & Z). injection Er as <- <-. apply (Z p eq_refl). apply ps_refl. }
  pose proof (h_init B true ok d_frame (fun _ => 77) eq_refl) as H0.
  destruct (Go _ 0 H0 ltac:(lia)) as (p1 & s1 & R1 & _). pose proof (h_row B true ok _ _ 0 _ _ H0 ltac:(lia) R1) as H1.
  destruct (Go _ 4 H1 ltac:(lia)) as (p2 & s2 & R2 & _). pose proof (h_row B true ok _ _ 4 _ _ H1 ltac:(lia) R2) as H2.
  destruct (C81_pool_partial B true ok d_frame s2 OK FIT Hok' H2) as (_ & _ & N & (r & Nr) & _). destruct (N r Nr) as (s3 & ->).
  pose proof (h_frame B true ok d_frame d_frame s2 s3 H2 eq_refl Nr) as H3.
  destruct (Go _ 9 H3 ltac:(lia)) as (p4 & s4 & R4 & V4).
  exists B, s3, p4, s4. split; [exact E|]. split; [exact OK|]. split; [exact FIT|]. split; [exact FOK|]. split; [exact Cl|].
  split; [rewrite P; vm_compute; reflexivity|]. split; [exact H3|]. split; [exact R4|]. split; [exact V4|].
  assert (X0 : x0 (sb_pos B) = 0 /\ x1 (sb_pos B) = 20) by (rewrite P; split; vm_compute; reflexivity). destruct X0 as [X0 X1].
  assert (Val : forall x v k, In k (concat (map pb_blocks (sb_prec B))) -> inside (cb_pos k) x 9 -> 0 <= x < 20 ->
    match d_frame k with Empty => v = 0 | Good f _ => v = f (9 - y0 (cb_pos k)) (x - x0 (cb_pos k)) | Bad _ => False end -> cells s4 (p4 + x) = v).
  { intros x v k Hk Ik Hx Ev. destruct (V4 x ltac:(lia)) as (v' & (k' & Hk' & Ik' & Ev') & Ec). rewrite X0, Z.sub_0_r in Ec. rewrite Ec.
    assert (block B k). { apply in_concat in Hk as (l & Hl & Hk). apply in_map_iff in Hl as (q & <- & Hq). exists q. auto. }
    assert (k' = k) by (eapply (bo_disjoint B OK); eassumption). subst k'.
    destruct (d_frame k); [congruence|congruence|destruct Ev]. }
  clear - E Val. vm_compute in E. injection E as <-. split.
  - apply (Val 2 110 (Cb (Reg 0 8 4 10) 256)); [vm_compute; tauto|unfold inside; cbn; lia|lia|]. vm_compute. reflexivity.
  - apply (Val 5 0 (Cb (Reg 4 8 8 10) 260)); [vm_compute; tauto|unfold inside; cbn; lia|lia|]. vm_compute. reflexivity.
Qed.

(** *** Refuted: every subband *)

(** A tile that starts at row 500, code-blocks of 4 x 64: the strip from row
    564 on takes in the code-block of rows 512 to 575, which is then stored 52
    rows before the buffer. *)
Theorem C81_unaligned_refuted : exists g B,
  g = Reg 0 500 4 1000 /\ axis_ok (x_axis 0 0 0 g 15 2) /\ axis_ok (y_axis 0 0 0 g 15 6) /\
  make_band 0 0 0 g 15 15 (2 ^ 2) (2 ^ 6) = ret B /\ band_ok B /\ ~ fits B /\
  frame_ok B (fun _ => Empty) /\ clean B (fun _ => Empty) /\
  (forall m, row_ptr B false (fun _ => Empty) (init B m) 564 UB) /\
  (forall m, row_ptr B true (fun _ => Empty) (init B m) 564 UB).
Proof.
  set (g := Reg 0 500 4 1000). exists g.
  destruct (C81_geometry 0 0 0 g 15 15 2 6) as (B & E & P & OK & _).
  { constructor; cbn; lia. } { constructor; cbn; lia. } { left; lia. } { vm_compute. reflexivity. }
  { vm_compute. reflexivity. } { vm_compute. reflexivity. }
  exists B. split; [reflexivity|]. split; [constructor; cbn; lia|]. split; [constructor; cbn; lia|]. split; [exact E|]. split; [exact OK|].
  clear P OK. vm_compute in E. injection E as <-. set (B := SB _ _ _ _).
  assert (W : exists l, walk B 564 628 = Ret l) by (eexists; vm_compute; reflexivity). destruct W as (l & W).
  split; [|split; [split; [discriminate|intros k l' i j v _ X; discriminate X]|split; [intros k _; reflexivity|split]]].
  - intros F. apply (F (Cb (Reg 0 512 4 576) 384) 1); [|cbn; lia].
    eexists. split; [left; reflexivity|]. cbn. tauto.
  - intros m. unfold row_ptr. cbn [init strip0 strip1]. change ((-1 <=? 564) && (564 <? -1)) with false. cbn iota.
    exists (Ret (init B m)). split; [apply wait_done; reflexivity|]. cbn [init pref0]. change (negb (-1 =? -1)) with false. cbn [andb]. cbn iota.
    change (sb_cbh B =? 0) with false. cbn iota.
    eexists. split; [eapply core_serial; [reflexivity|exact W]|]. vm_compute in W. injection W as <-. vm_compute. reflexivity.
  - intros m. unfold row_ptr. cbn [init strip0 strip1]. change ((-1 <=? 564) && (564 <? -1)) with false. cbn iota.
    exists (Ret (init B m)). split; [apply wait_done; reflexivity|]. cbn [init pref0]. change (negb (-1 =? -1)) with false. cbn [andb]. cbn iota.
    change (sb_cbh B =? 0) with false. cbn iota.
    eexists. split; [eapply core_zero; [reflexivity|exact W|vm_compute in W; injection W as <-; vm_compute; reflexivity]|]. reflexivity.
Qed.
Print Assumptions C81_unaligned_refuted.

(** *** Refuted: precincts lower than code-blocks *)

(** One column of rows 1 to 3; precincts of two rows, code-blocks of four: the
    code-blocks hold row 1 and rows 2 and 3.  The first stores one row too
    many, and a worker may do so after another has decoded the second. *)
Definition t_frame : frame := fun k =>
  if y0 (cb_pos k) =? 1 then Good (fun _ _ => 7) (Some (fun _ => 0)) else Good (fun i _ => 8 + i) None.
(** A schedule: the number of the task that goes on, step by step. *)
Fixpoint sched (B : sband) (l : list nat) (s : rowbuf) : option rowbuf :=
  match l with
  | [] => Some s
  | i :: l =>
    match nth_error (tasks s) i with
    | Some (w :: ws, f) =>
      match put B (cells s) w with
      | Ret m => sched B l (set_pool s m (firstn i (tasks s) ++ (ws, f) :: skipn (S i) (tasks s)) (err s))
      | _ => None
      end
    | Some ([], f) => sched B l (set_pool s (cells s) (firstn i (tasks s) ++ skipn (S i) (tasks s)) (err s || f))
    | None => None
    end
  end.
Lemma nth_cut {A} (l : list A) i a : nth_error l i = Some a -> l = firstn i l ++ a :: skipn (S i) l.
Proof.
  revert l. induction i as [|i IH]; intros [|b l] H; cbn in H; try discriminate.
  - injection H as <-. reflexivity.
  - cbn [firstn skipn app]. f_equal. apply IH, H.
Qed.
Lemma sched_wait B l : forall s s', sched B l s = Some s' -> tasks s' = [] -> wait B s (Ret s').
Proof.
  induction l as [|i l IH]; intros s s' H T; cbn [sched] in H.
  - injection H as <-. apply wait_done, T.
  - destruct (nth_error (tasks s) i) as [[[|w ws] f]|] eqn:N; [| |discriminate].
    + eapply wait_step; [eapply pool_end, nth_cut, N|]. apply IH; assumption.
    + destruct (put B (cells s) w) as [m| |] eqn:P; try discriminate.
      eapply wait_step; [eapply pool_store; [apply nth_cut, N|exact P]|]. apply IH; assumption.
Qed.
Theorem C81_thin_precincts_refuted : exists g B F m s p,
  g = Reg 0 1 1 4 /\ axis_ok (x_axis 0 0 0 g 15 2) /\ axis_ok (y_axis 0 0 0 g 1 2) /\ aligned (y_axis 0 0 0 g 1 2) /\
  make_band 0 0 0 g 15 1 (2 ^ 2) (2 ^ 2) = ret B /\ band_ok B /\ fits B /\ clean B F /\ fails_inside B F /\
  row_ptr B true F (init B m) 2 (Ret (Some p, s)) /\ tasks s = [] /\ coefficient B F 0 2 8 /\ cells s p = 0.
Proof.
  set (g := Reg 0 1 1 4).
  destruct (C81_geometry 0 0 0 g 15 1 2 2) as (B & E & P & OK & FIT & _).
  { constructor; cbn; lia. } { constructor; cbn; lia. } { left; lia. } { vm_compute. reflexivity. }
  { vm_compute. reflexivity. } { vm_compute. reflexivity. }
  assert (Al : aligned (y_axis 0 0 0 g 1 2)) by (right; vm_compute; reflexivity). specialize (FIT Al).
  exists g, B, t_frame, (fun _ => 0). eexists. eexists.
  split; [reflexivity|]. split; [constructor; cbn; lia|]. split; [constructor; cbn; lia|]. split; [exact Al|]. split; [exact E|].
  split; [exact OK|]. split; [exact FIT|].
  assert (Nb : forall k, is_bad (t_frame k) = false) by (intros k; unfold t_frame; destruct (y0 (cb_pos k) =? 1); reflexivity).
  split; [intros k _; apply Nb|]. split; [intros k l i j v _ Ek; pose proof (Nb k) as X; rewrite Ek in X; discriminate|].
  clear P OK FIT Al Nb. vm_compute in E. injection E as <-. set (B := SB _ _ _ _).
  split; [|split; [|split]].
  - unfold row_ptr. cbn [init strip0 strip1]. change ((-1 <=? 2) && (2 <? -1)) with false. cbn iota.
    exists (Ret (init B (fun _ => 0))). split; [apply wait_done; reflexivity|].
    cbn [init pref0]. change (negb (-1 =? -1)) with false. cbn [andb]. cbn iota.
    change (sb_cbh B =? 0) with false. cbn iota.
    eexists. split.
    + eapply core_tasks; [reflexivity|vm_compute; reflexivity|vm_compute; reflexivity|vm_compute; discriminate|].
      apply (sched_wait B [1; 1; 0; 0; 0; 0]%nat); [vm_compute; reflexivity|vm_compute; reflexivity].
    + vm_compute. reflexivity.
  - vm_compute. reflexivity.
  - exists (Cb (Reg 0 2 1 4) 32). split; [eexists; split; [right; left; reflexivity|cbn; tauto]|]. split; [unfold inside; cbn; lia|].
    vm_compute. reflexivity.
  - vm_compute. reflexivity.
Qed.
Print Assumptions C81_thin_precincts_refuted.

(** *** Refuted: a frame without rejected code-blocks is delivered *)

(** One column of eight rows, code-blocks of four.  In the first frame the
    second strip is rejected, but only row 0 is read.  Of the second frame,
    which holds no code-blocks, row 4 is refused. *)
Definition e_frame : frame := fun k => if y0 (cb_pos k) =? 0 then Empty else Bad [].
Theorem C81_stale_error_refuted : exists g B s s',
  g = Reg 0 0 1 8 /\ axis_ok (x_axis 0 0 0 g 15 2) /\ axis_ok (y_axis 0 0 0 g 15 2) /\
  make_band 0 0 0 g 15 15 (2 ^ 2) (2 ^ 2) = ret B /\ band_ok B /\ fits B /\
  history B true (frame_ok B) (fun _ => Empty) s /\ clean B (fun _ => Empty) /\
  row_ptr B true (fun _ => Empty) s 4 (Ret (None, s')).
Proof.
  set (g := Reg 0 0 1 8).
  destruct (C81_geometry 0 0 0 g 15 15 2 2) as (B & E & P & OK & FIT & FOK).
  { constructor; cbn; lia. } { constructor; cbn; lia. } { left; lia. } { vm_compute. reflexivity. }
  { vm_compute. reflexivity. } { vm_compute. reflexivity. }
  assert (Al : aligned (y_axis 0 0 0 g 15 2)) by (left; vm_compute; reflexivity).
  assert (Nt : no_thin (y_axis 0 0 0 g 15 2)) by (left; vm_compute; discriminate). specialize (FIT Al).
  assert (F1 : frame_ok B e_frame).
  { apply (FOK Al Nt). intros k l i j v _ Ek Hl. unfold e_frame in Ek. destruct (y0 (cb_pos k) =? 0); [discriminate|].
    injection Ek as <-. destruct Hl. }
  assert (F2 : frame_ok B (fun _ => Empty)) by (apply (FOK Al Nt); intros k l i j v _ Ek; discriminate).
  exists g, B. 
  assert (Y : y0 (sb_pos B) = 0 /\ y1 (sb_pos B) = 8) by (rewrite P; split; reflexivity).
  assert (R : exists p1 s1 s2 s3 p4 s4 s5,
    row_ptr B true e_frame (init B (fun _ => 0)) 0 (Ret (Some p1, s1)) /\ pool1 B s1 (Ret s2) /\ next_frame B s2 (Ret s3) /\
    row_ptr B true (fun _ => Empty) s3 0 (Ret (Some p4, s4)) /\ row_ptr B true (fun _ => Empty) s4 4 (Ret (None, s5))).
  { clear - E. vm_compute in E. injection E as <-. set (B := SB _ _ _ _).
    do 7 eexists. split; [|split; [|split; [|split]]].
    - unfold row_ptr. cbn [init strip0 strip1]. change ((-1 <=? 0) && (0 <? -1)) with false. cbn iota.
      exists (Ret (init B (fun _ => 0))). split; [apply wait_done; reflexivity|].
      cbn [init pref0]. change (negb (-1 =? -1)) with false. cbn [andb]. cbn iota. change (sb_cbh B =? 0) with false. cbn iota.
      eexists. split.
      + eapply core_none; [reflexivity|vm_compute; reflexivity|vm_compute; reflexivity|vm_compute; reflexivity].
      + unfold leave. cbn [bind]. vm_compute. reflexivity.
    - eapply (pool_end B _ []). reflexivity.
    - eexists. split; [apply wait_done; reflexivity|reflexivity].
    - unfold row_ptr. match goal with |- if ?b then _ else _ => change b with false end. cbn iota.
      eexists. split; [apply wait_done; reflexivity|]. cbn beta iota.
      match goal with |- if ?b then _ else _ => change b with false end. cbn iota. change (sb_cbh B =? 0) with false. cbn iota.
      eexists. split.
      + eapply core_none; [reflexivity|vm_compute; reflexivity|vm_compute; reflexivity|vm_compute; reflexivity].
      + unfold leave. cbn [bind]. vm_compute. reflexivity.
    - unfold row_ptr. match goal with |- if ?b then _ else _ => change b with false end. cbn iota.
      eexists. split; [apply wait_done; reflexivity|]. cbn beta iota.
      match goal with |- if ?b then _ else _ => change b with true end. cbn iota. reflexivity. }
  destruct R as (p1 & s1 & s2 & s3 & p4 & s4 & s5 & R1 & R2 & R3 & R4 & R5).
  exists s4, s5. split; [reflexivity|]. split; [constructor; cbn; lia|]. split; [constructor; cbn; lia|]. split; [exact E|].
  split; [exact OK|]. split; [exact FIT|]. split; [|split; [intros k _; reflexivity|exact R5]].
  eapply (h_row _ _ _ _ _ 0); [|lia|exact R4]. eapply h_frame; [|exact F2|exact R3]. eapply h_pool; [|exact R2].
  eapply (h_row _ _ _ _ _ 0); [|lia|exact R1]. apply h_init, F1.
Qed.
Print Assumptions C81_stale_error_refuted.
