(** Theorems about precinct identifiers and view-window resolution. *)
From Verif Require Import Base BaseLemmas PrecinctModel PrecinctSpec PrecinctProofs.
From Verif Require Import ViewModel ViewSpec ViewProofs ViewMain.
From Coq Require Import Sorted.

(** A codestream used in the examples: canvas 100x80 from (5,3), tiles 40x32
    from (2,1), a full-size component with two levels and a half-size one with
    one level. *)
Definition demo : header := {|
  h_size := (100, 80); h_origin := (5, 3); h_tsize := (40, 32); h_torigin := (2, 1);
  h_comps := [ {| c_sub := (1, 1); c_NL := 2; c_pp := [(3, 3); (3, 4); (4, 4)] |};
               {| c_sub := (2, 2); c_NL := 1; c_pp := [(3, 3); (4, 4)] |} ];
  h_irreversible := false |}.
Example demo_legal : legal demo.
Proof.
  constructor; [constructor; cbn; lia..| |cbn; lia|vm_compute; discriminate].
  repeat constructor; cbn; lia.
Qed.
Definition countable_b (h : header) : bool :=
  forallb (fun tx => forallb (fun ty => forallb (fun c =>
    sumf (n_precincts h c tx ty) (zseq (c_NL c + 1)) <? two32) (h_comps h))
    (zseq (tiles_y h))) (zseq (tiles_x h)).
Lemma countable_b_ok h : countable_b h = true -> countable h.
Proof.
  intros H tx ty c Hx Hy Hc. unfold countable_b in H. rewrite forallb_forall in H.
  specialize (H tx (proj2 (zseq_In _ _) Hx)). rewrite forallb_forall in H.
  specialize (H ty (proj2 (zseq_In _ _) Hy)). rewrite forallb_forall in H.
  specialize (H c Hc). apply Z.ltb_lt in H. exact H.
Qed.
Example demo_countable : countable demo.
Proof. apply countable_b_ok. vm_compute. reflexivity. Qed.

(** ** C14.  Identifiers and precincts correspond one to one. *)

(** What "precinct [q] of an interval" means: the numbers 0 .. cells-1 are
    exactly the partition cells that hold a position of the interval. *)
Theorem C14_precinct_count : forall ab pp q, 0 <= pp ->
  (0 <= q < cells ab pp <-> exists n, in_cell ab pp q n).
Proof. intros. symmetry. apply cells_iff; assumption. Qed.
Print Assumptions C14_precinct_count.

Theorem C14_ids_distinct : forall h, legal h -> countable h ->
  exists x, build h = ret x /\
  forall k, names_precinct h k ->
    exists i, id_of x k = ret i /\ 0 <= i < 2 ^ 64 /\
      decompose x i = ret (Some k) /\
      forall k', names_precinct h k' -> id_of x k' = ret i -> k' = k.
Proof.
  intros h Hl Hc. exists (index_of_header h). split; [apply build_exact; assumption|].
  intros k Hk. destruct (names_id h Hl Hc k Hk) as (i & Hi & Hb).
  exists i. split; [exact Hi|]. split; [exact Hb|].
  split; [apply decompose_id; assumption|].
  intros k' Hk' Hi'. eapply ids_distinct; eauto.
Qed.
Print Assumptions C14_ids_distinct.

(** Only existing precincts get an identifier (fields are unsigned in C++). *)
Theorem C14_only_existing : forall h k, legal h -> countable h ->
  0 <= k_t k -> 0 <= k_c k -> 0 <= k_r k -> 0 <= k_p k ->
  exists x, build h = ret x /\
    (names_precinct h k <-> exists i, id_of x k = ret i).
Proof.
  intros h k Hl Hc H1 H2 H3 H4. exists (index_of_header h).
  split; [apply build_exact; assumption|]. split.
  - intros Hk. destruct (names_id h Hl Hc k Hk) as (i & Hi & _). eauto.
  - intros (i & Hi). eapply id_some; eauto.
Qed.
Print Assumptions C14_only_existing.

(** Decomposing any identifier below (tiles * components * 2^32) gives a key
    with that identifier, or nothing. *)
Theorem C14_decompose_sound : forall h i k, legal h -> countable h ->
  0 <= i < tiles_x h * tiles_y h * zlen (h_comps h) * 2 ^ 32 ->
  exists x, build h = ret x /\
    (decompose x i = ret (Some k) -> names_precinct h k /\ id_of x k = ret i).
Proof.
  intros h i k Hl Hc Hi. exists (index_of_header h).
  split; [apply build_exact; assumption|]. apply id_decompose; assumption.
Qed.
Print Assumptions C14_decompose_sound.

(** Sequence numbers run through 0, 1, ... without gaps. *)
Theorem C14_sequence_dense : forall h tx ty i c s, legal h -> countable h ->
  0 <= tx < tiles_x h -> 0 <= ty < tiles_y h -> 0 <= i ->
  nth_error (h_comps h) (Z.to_nat i) = Some c ->
  0 <= s < sumf (n_precincts h c tx ty) (zseq (c_NL c + 1)) ->
  exists x r p, build h = ret x /\
    let k := {| k_t := ty * tiles_x h + tx; k_c := i; k_r := r; k_p := p |} in
    names_precinct h k /\ seq_no x k = ret s.
Proof.
  intros h tx ty i c s Hl Hc Hx Hy Hi Hn Hs.
  destruct (seq_dense h Hl Hc tx ty i c s Hx Hy Hi Hn Hs) as (r & p & H).
  exists (index_of_header h), r, p. split; [apply build_exact; assumption|exact H].
Qed.
Print Assumptions C14_sequence_dense.

Example C14_case :
  (let? x := build demo in
   let? i := id_of x {| k_t := 4; k_c := 0; k_r := 2; k_p := 5 |} in
   let? k := decompose x i in
   let? s := seq_no x {| k_t := 4; k_c := 0; k_r := 2; k_p := 5 |} in ret (i, s, k))
  = ret (310, 17, Some {| k_t := 4; k_c := 0; k_r := 2; k_p := 5 |}).
Proof. vm_compute. reflexivity. Qed.

(** A larger identifier is cut to 32 bits and taken for another precinct. *)
Theorem C14_large_identifier_refuted : exists h x i k,
  legal h /\ countable h /\ build h = ret x /\ 0 <= i < 2 ^ 64 /\
  decompose x i = ret (Some k) /\ id_of x k <> ret i.
Proof.
  exists demo. destruct (build demo) as [[x|]| |] eqn:E; [|vm_compute in E; discriminate..].
  exists x, (2 ^ 33 * 9), {| k_t := 0; k_c := 0; k_r := 0; k_p := 0 |}.
  vm_compute in E. apply ret_inj in E. subst x.
  split; [exact demo_legal|]. split; [exact demo_countable|]. split; [reflexivity|].
  split; [lia|]. vm_compute. split; [reflexivity|discriminate].
Qed.
Print Assumptions C14_large_identifier_refuted.

(** Headers the marker readers accept but the index cannot digest: 32
    decomposition levels shift by the full word width; a zero tile size divides
    by zero. *)
Theorem C14_32_levels_refuted : exists h, build h = UB /\
  Forall (fun c => c_NL c = 32 /\ zlen (c_pp c) = 33) (h_comps h) /\ 0 < fst (h_tsize h).
Proof.
  exists {| h_size := (64, 64); h_origin := (0, 0); h_tsize := (64, 64); h_torigin := (0, 0);
    h_comps := [{| c_sub := (1, 1); c_NL := 32; c_pp := repeat (15, 15) 33 |}];
    h_irreversible := false |}.
  split; [vm_compute; reflexivity|]. split; [repeat constructor|reflexivity].
Qed.
Print Assumptions C14_32_levels_refuted.
Theorem C14_zero_tile_refuted : exists h, build h = UB /\ h_tsize h = (0, 0) /\
  Forall comp_legal (h_comps h) /\ h_size h = (64, 64) /\ h_origin h = (0, 0) /\ h_torigin h = (0, 0).
Proof.
  exists {| h_size := (64, 64); h_origin := (0, 0); h_tsize := (0, 0); h_torigin := (0, 0);
    h_comps := [{| c_sub := (1, 1); c_NL := 0; c_pp := [(15, 15)] |}];
    h_irreversible := false |}.
  split; [vm_compute; reflexivity|]. split; [reflexivity|].
  split; [repeat constructor; cbn; lia|]. auto.
Qed.
Print Assumptions C14_zero_tile_refuted.

(** ** C15.  The number of discarded levels honours the requested frame size. *)
Theorem C15_discard_level : forall h w m, legal h -> countable h -> window_ok w -> most_levels h m ->
  exists x d, build h = ret x /\ pick_discard_level x w = ret d /\ 0 <= d <= m /\
  let fits r := frame_w h r <= asked_w h w /\ frame_h h r <= asked_h h w in
  let holds r := asked_w h w <= frame_w h r /\ asked_h h w <= frame_h h r in
  let diff r := Z.abs (frame_w h r * frame_h h r - asked_w h w * asked_h h w) in
  match rounding w with
  | Down =>
      (fits d /\ forall r, 0 <= r <= m -> fits r ->
         frame_w h r <= frame_w h d /\ frame_h h r <= frame_h h d) \/
      (d = m /\ forall r, 0 <= r <= m -> ~ fits r)
  | Up =>
      (holds d /\ forall r, 0 <= r <= m -> holds r ->
         frame_w h d <= frame_w h r /\ frame_h h d <= frame_h h r) \/
      (d = 0 /\ forall r, 0 <= r <= m -> ~ holds r)
  | Closest =>
      forall r, 0 <= r <= m -> diff d <= diff r /\ (r < d -> diff d < diff r)
  end.
Proof.
  intros h w m Hl Hc Hw Hm. exists (index_of_header h).
  destruct (pick_spec h Hl w Hw m Hm) as (d & H). exists d.
  split; [apply build_exact; assumption|exact H].
Qed.
Print Assumptions C15_discard_level.
Definition ask (rnd : round) (f o s : Z * Z) (cs : list Z) : window :=
  {| fx := fst f; fy := snd f; ox := fst o; oy := snd o; sx := fst s; sy := snd s;
     comps := cs; rounding := rnd |}.
Example C15_case :
  map (frame_w demo) [0; 1; 2] = [95; 47; 23] /\ map (frame_h demo) [0; 1; 2] = [77; 38; 19] /\
  (let? x := build demo in
   let? a := pick_discard_level x (ask Down (60, 60) (0, 0) (0, 0) []) in
   let? b := pick_discard_level x (ask Up (60, 60) (0, 0) (0, 0) []) in
   let? c := pick_discard_level x (ask Closest (60, 60) (0, 0) (0, 0) []) in
   let? d := pick_discard_level x (ask Down (5, 5) (0, 0) (0, 0) []) in ret [a; b; c; d]) = ret [1; 0; 1; 2].
Proof. vm_compute. auto. Qed.

(** ** C47.  Every request is answered with existing precincts, in order. *)
Theorem C47_only_existing : forall h w, legal h -> countable h -> window_ok w ->
  exists x ks, build h = ret x /\ resolve_view_window x w = ret ks /\ Forall (names_precinct h) ks.
Proof.
  intros h w Hl Hc Hw. destruct (resolve_valid h Hl Hc w Hw) as (ks & H).
  exists (index_of_header h), ks. split; [apply build_exact; assumption|exact H].
Qed.
Print Assumptions C47_only_existing.
Theorem C47_sorted_no_repeats : forall h w, legal h -> countable h -> window_ok w ->
  StronglySorted Z.lt (comps w) ->
  exists x ks, build h = ret x /\ resolve_view_window x w = ret ks /\
    StronglySorted key_lt ks /\ NoDup ks.
Proof.
  intros h w Hl Hc Hw Hs. destruct (resolve_sorted h Hl Hc w Hw Hs) as (ks & H).
  exists (index_of_header h), ks. split; [apply build_exact; assumption|exact H].
Qed.
Print Assumptions C47_sorted_no_repeats.

(** A request without region lists exactly the precincts of the resolutions
    kept, for the selected components. *)
Theorem C47_whole_image : forall h w, legal h -> countable h -> window_ok w ->
  sx w = 0 -> sy w = 0 -> ox w = 0 -> oy w = 0 ->
  exists x d ks, build h = ret x /\ pick_discard_level x w = ret d /\
    resolve_view_window x w = ret ks /\
    forall k, In k ks <->
      names_precinct h k /\ selects w (k_c k) /\
      exists c, nth_error (h_comps h) (Z.to_nat (k_c k)) = Some c /\ k_r k <= top_res c d.
Proof.
  intros h w Hl Hc Hw H1 H2 H3 H4.
  destruct (resolve_valid h Hl Hc w Hw) as (ks & Hks & _).
  destruct (resolve_exact h Hl Hc w Hw) as (d & Hd & _).
  exists (index_of_header h), d, ks. split; [apply build_exact; assumption|].
  split; [exact Hd|]. split; [exact Hks|]. intros k.
  apply whole_iff; try assumption. unfold no_region. rewrite H1, H2. reflexivity.
Qed.
Print Assumptions C47_whole_image.

(** A region that lies beyond the image lists nothing. *)
Theorem C47_outside_empty : forall h w d x, legal h -> countable h -> window_ok w ->
  build h = ret x -> pick_discard_level x w = ret d ->
  u32 (fst (asked_x h w d)) -> u32 (fst (asked_y h w d)) ->
  fst (h_size h) <= fst (asked_x h w d) \/ snd (h_size h) <= fst (asked_y h w d) ->
  resolve_view_window x w = ret [].
Proof.
  intros h w d x Hl Hc Hw Hx Hd Ux Uy Ho. rewrite (build_exact h Hl Hc) in Hx.
  apply ret_inj in Hx. subst x.
  destruct (resolve_exact h Hl Hc w Hw) as (d' & Hd' & Hdb & HH).
  rewrite Hd in Hd'. apply ret_inj in Hd'. subst d'. cbv zeta in HH.
  destruct HH as (_ & _ & HBx & HBy & ->).
  destruct (lg_x h Hl) as [X1 _ _ _]. destruct (lg_y h Hl) as [Y1 _ _ _].
  assert (R : forall o origin size, 0 <= o -> 0 <= origin -> u32 (o * 2 ^ d + origin) ->
            size <= o * 2 ^ d + origin -> region_lo o (2 ^ d) origin size = size).
  { clear - Hdb. intros o origin size H1 H2 [H3 H4] H5. unfold region_lo.
    change (2 ^ 32) with two32 in H4.
    pose proof (Z.pow_pos_nonneg 2 d ltac:(lia) ltac:(lia)) as HP.
    rewrite (wrap32_small (o * 2 ^ d)) by nia. rewrite wrap32_small by lia. lia. }
  destruct Ho as [Ho|Ho].
  - rewrite (R (ox w)) by (try apply Hw; try assumption; lia).
    rewrite (proj2 (Z.leb_le _ _)) by apply HBx. reflexivity.
  - rewrite (R (oy w)) by (try apply Hw; try assumption; lia).
    rewrite (proj2 (Z.leb_le _ (snd (h_size h)))) by apply HBy. rewrite orb_true_r. reflexivity.
Qed.
Print Assumptions C47_outside_empty.
Example C47_case :
  (let? x := build demo in
   let? ks := resolve_view_window x (ask Closest (48, 40) (20, 10) (9, 6) [0; 1]) in
   ret (map (fun k => (k_t k, k_c k, k_r k, k_p k)) ks)) =
  ret [(1, 0, 0, 0); (1, 0, 0, 1); (1, 0, 0, 2); (1, 0, 0, 3); (1, 0, 1, 0); (1, 0, 1, 1); (1, 0, 1, 2); (1, 0, 1, 4); (1, 0, 1, 5); (1, 0, 1, 6); (1, 1, 0, 0); (1, 1, 0, 1); (1, 1, 0, 2); (1, 1, 0, 3); (4, 0, 0, 0); (4, 0, 0, 1); (4, 0, 1, 0); (4, 0, 1, 1); (4, 0, 1, 2); (4, 1, 0, 0); (4, 1, 0, 1)].
Proof. vm_compute. reflexivity. Qed.

(** The header file promises a list without repeats for any request; a
    component listed twice is repeated. *)
Theorem C47_repeats_refuted : exists h w x ks, legal h /\ countable h /\ window_ok w /\
  build h = ret x /\ resolve_view_window x w = ret ks /\ ~ NoDup ks.
Proof.
  exists demo, (ask Down (30, 30) (0, 0) (0, 0) [0; 0]).
  destruct (build demo) as [[x|]| |] eqn:E; [|vm_compute in E; discriminate..].
  vm_compute in E. apply ret_inj in E. subst x.
  eexists _, _. split; [exact demo_legal|]. split; [exact demo_countable|].
  split; [constructor; cbn; try (split; [discriminate|reflexivity]); repeat constructor; lia|].
  split; [reflexivity|]. split; [vm_compute; reflexivity|].
  intros H. inversion H as [|k l Hn _ E]. apply Hn. subst. cbn. tauto.
Qed.
Print Assumptions C47_repeats_refuted.

(** Offsets that overflow 32 bits after scaling fold back into the image. *)
Theorem C47_far_offset_refuted : exists h w x d ks, legal h /\ countable h /\ window_ok w /\
  build h = ret x /\ pick_discard_level x w = ret d /\
  fst (h_size h) <= fst (asked_x h w d) /\ resolve_view_window x w = ret ks /\ ks <> [].
Proof.
  exists demo, (ask Down (48, 40) (2 ^ 31, 0) (4, 4) []).
  destruct (build demo) as [[x|]| |] eqn:E; [|vm_compute in E; discriminate..].
  vm_compute in E. apply ret_inj in E. subst x.
  eexists _, _, _. split; [exact demo_legal|]. split; [exact demo_countable|].
  split; [constructor; cbn; try (split; [discriminate|reflexivity]); repeat constructor; lia|].
  split; [reflexivity|]. split; [vm_compute; reflexivity|].
  split; [vm_compute; discriminate|]. split; [vm_compute; reflexivity|discriminate].
Qed.
Print Assumptions C47_far_offset_refuted.

(** ** C48.  The answer suffices to reconstruct the window. *)

(** Sample (sx,sy) of component [i] is asked for; position (nx,ny) of
    resolution [r] is read when it is reconstructed.  The precinct holding that
    position is listed.  Partial: holds below the highest resolution of the
    component (or with no decomposition); at the highest one the code adds no
    margin and the claim fails, see below. *)
Theorem C48_covered_partial : forall h w x d ks tx ty i c sx_ sy_ r nx ny,
  legal h -> countable h -> window_ok w ->
  build h = ret x -> pick_discard_level x w = ret d -> resolve_view_window x w = ret ks ->
  u32 (fst (asked_x h w d)) -> u32 (snd (asked_x h w d)) ->
  u32 (fst (asked_y h w d)) -> u32 (snd (asked_y h w d)) ->
  0 <= tx < tiles_x h -> 0 <= ty < tiles_y h ->
  0 <= i -> nth_error (h_comps h) (Z.to_nat i) = Some c -> selects w i ->
  sample_in (fst (c_sub c)) sx_ (asked_x h w d) (x_tile h tx) ->
  sample_in (snd (c_sub c)) sy_ (asked_y h w d) (y_tile h ty) ->
  0 <= r <= top_res c d -> (r < c_NL c \/ c_NL c = 0) ->
  needed (reach (h_irreversible h)) (sx_ / 2 ^ (c_NL c - top_res c d)) (top_res c d) r nx ->
  needed (reach (h_irreversible h)) (sy_ / 2 ^ (c_NL c - top_res c d)) (top_res c d) r ny ->
  fst (x_span h c tx r) <= nx < snd (x_span h c tx r) ->
  fst (y_span h c ty r) <= ny < snd (y_span h c ty r) ->
  exists qx qy, in_cell (x_span h c tx r) (ppx c r) qx nx /\
    in_cell (y_span h c ty r) (ppy c r) qy ny /\
    In (at_cell h c tx ty i r qx qy) ks.
Proof.
  intros h w x d ks tx ty i c sx_ sy_ r nx ny Hl Hc Hw Hx Hd Hks.
  rewrite (build_exact h Hl Hc) in Hx. apply ret_inj in Hx. subst x.
  apply covered; assumption.
Qed.
Print Assumptions C48_covered_partial.
(** Conversely nothing far away is listed: every listed precinct holds a
    position within twice the filter reach of an asked sample. *)
Theorem C48_no_excess : forall h w x d ks k,
  legal h -> countable h -> window_ok w ->
  build h = ret x -> pick_discard_level x w = ret d -> resolve_view_window x w = ret ks ->
  u32 (fst (asked_x h w d)) -> u32 (snd (asked_x h w d)) ->
  u32 (fst (asked_y h w d)) -> u32 (snd (asked_y h w d)) -> In k ks ->
  exists tx ty i c r qx qy nx ny sx_ sy_,
    0 <= tx < tiles_x h /\ 0 <= ty < tiles_y h /\
    nth_error (h_comps h) (Z.to_nat i) = Some c /\ selects w i /\
    0 <= r <= top_res c d /\ k = at_cell h c tx ty i r qx qy /\
    nx / 2 ^ ppx c r = fst (x_span h c tx r) / 2 ^ ppx c r + qx /\
    ny / 2 ^ ppy c r = fst (y_span h c ty r) / 2 ^ ppy c r + qy /\
    sample_in (fst (c_sub c)) sx_ (asked_x h w d) (x_tile h tx) /\
    sample_in (snd (c_sub c)) sy_ (asked_y h w d) (y_tile h ty) /\
    Z.abs (nx - sx_ / 2 ^ (c_NL c - r)) <= 2 * reach (h_irreversible h) /\
    Z.abs (ny - sy_ / 2 ^ (c_NL c - r)) <= 2 * reach (h_irreversible h).
Proof.
  intros h w x d ks k Hl Hc Hw Hx Hd Hks U1 U2 U3 U4 Hin.
  rewrite (build_exact h Hl Hc) in Hx. apply ret_inj in Hx. subst x.
  destruct (no_excess h Hl Hc w Hw d Hd ks k Hks U1 U2 U3 U4 Hin)
    as (tx & ty & i & c & r & qx & qy & nx & ny & sx_ & sy_ & H1 & H2 & H3 & H4 & H5 & H6 & H7 & H8 & H9 & H10 & H11 & H12).
  exists tx, ty, i, c, r, qx, qy, nx, ny, sx_, sy_.
  assert (M : margin (h_irreversible h) (c_NL c - r) <= 2 * reach (h_irreversible h)).
  { unfold margin, reach. destruct (_ =? 0), (h_irreversible h); lia. }
  repeat (split; [assumption|]). split; eapply Z.le_trans; eassumption.
Qed.
Print Assumptions C48_no_excess.
Definition strip : header := {|
  h_size := (64, 8); h_origin := (0, 0); h_tsize := (64, 8); h_torigin := (0, 0);
  h_comps := [ {| c_sub := (1, 1); c_NL := 2; c_pp := [(3, 3); (3, 3); (3, 3)] |} ];
  h_irreversible := false |}.
Example strip_ok : legal strip /\ countable strip.
Proof.
  split; [|apply countable_b_ok; vm_compute; reflexivity].
  constructor; [constructor; cbn; lia..| |cbn; lia|vm_compute; discriminate].
  repeat constructor; cbn; lia.
Qed.
(** Sample 16 of the half-size image, first of the window [16,24): position 15
    of resolution 1, in precinct column 1, is read and listed. *)
Example C48_case :
  needed 2 16 1 1 15 /\ in_cell (x_span strip (nth 0 (h_comps strip) {| c_sub := (1,1); c_NL := 0; c_pp := [] |}) 0 1) 3 1 15 /\
  (let? x := build strip in resolve_view_window x (ask Down (32, 4) (16, 0) (8, 4) []))
  = ret [ {| k_t := 0; k_c := 0; k_r := 0; k_p := 0 |}; {| k_t := 0; k_c := 0; k_r := 0; k_p := 1 |};
          {| k_t := 0; k_c := 0; k_r := 1; k_p := 1 |}; {| k_t := 0; k_c := 0; k_r := 1; k_p := 2 |};
          {| k_t := 0; k_c := 0; k_r := 1; k_p := 3 |} ].
Proof.
  split; [exists 16; split; [constructor|cbn; lia]|].
  split; [vm_compute; intuition discriminate|vm_compute; reflexivity].
Qed.
(** At full resolution the same neighbour is read but its precinct is missing. *)
Theorem C48_top_resolution_refuted : exists h w x ks c nx,
  legal h /\ countable h /\ window_ok w /\ build h = ret x /\
  pick_discard_level x w = ret 0 /\ resolve_view_window x w = ret ks /\
  nth_error (h_comps h) 0 = Some c /\
  sample_in (fst (c_sub c)) (ox w) (asked_x h w 0) (x_tile h 0) /\
  sample_in (snd (c_sub c)) (oy w) (asked_y h w 0) (y_tile h 0) /\
  needed (reach (h_irreversible h)) (ox w) (top_res c 0) (top_res c 0) nx /\
  exists qx, in_cell (x_span h c 0 (top_res c 0)) (ppx c (top_res c 0)) qx nx /\
    forall qy, ~ In (at_cell h c 0 0 0 (top_res c 0) qx qy) ks.
Proof.
  exists strip, (ask Down (64, 8) (16, 0) (8, 8) []).
  destruct (build strip) as [[x|]| |] eqn:E; [|vm_compute in E; discriminate..].
  vm_compute in E. apply ret_inj in E. subst x.
  eexists _, _, _, 15. split; [apply strip_ok|]. split; [apply strip_ok|].
  split; [constructor; cbn; try (split; [discriminate|reflexivity]); constructor|].
  split; [reflexivity|]. split; [vm_compute; reflexivity|]. split; [vm_compute; reflexivity|].
  split; [reflexivity|].
  split; [vm_compute; intuition discriminate|]. split; [vm_compute; intuition discriminate|].
  split; [exists 16; split; [constructor|cbn; lia]|].
  exists 1. split; [vm_compute; intuition discriminate|].
  intros qy Hin. cbn [In] in Hin.
  repeat (destruct Hin as [Hin|Hin];
    [apply (f_equal (fun k => (k_r k, k_p k))) in Hin; cbn [k_r k_p at_cell] in Hin;
     apply pair_inj in Hin as [Hr Hp]; vm_compute in Hr; try discriminate;
     change (cells _ _) with 8 in Hp; lia|]).
  exact Hin.
Qed.
Print Assumptions C48_top_resolution_refuted.
