(** C22 - C25: the reversible wavelet transform. *)
From Verif Require Import Base DwtModel DwtSpec DwtProofs StreamModel PyramidModel DwtMain.

(** ** C22.  One row at column [u0], any content and length. *)
(** What the encoder computes is the 5/3 filter of the symmetrically extended
    signal ([analysed53], DwtSpec); no access leaves the buffers ([Ret]). *)
Theorem C22_row_is_the_53_filter : forall u0 row, 0 <= u0 -> 2 <= zlen row ->
  fwd_row u0 (u0 + zlen row) row = Ret (map (analysed53 (extended 0 u0 row)) (range u0 (u0 + zlen row))).
Proof. exact fwd_row_is_53. Qed.
Print Assumptions C22_row_is_the_53_filter.
(** Filter, split into two planes, inverse filter of the planes: the row. *)
Theorem C22_row_restored : forall u0 row, 0 <= u0 -> 1 <= zlen row ->
  exists y lp hp, fwd_row u0 (u0 + zlen row) row = Ret y /\ zlen y = zlen row
    /\ plane_lp u0 (u0 + zlen row) y = Ret lp /\ plane_hp u0 (u0 + zlen row) y = Ret hp
    /\ zlen lp = width_lp u0 (u0 + zlen row) /\ zlen hp = width_hp u0 (u0 + zlen row)
    /\ inv_row_planar u0 (u0 + zlen row) lp hp = Ret row.
Proof. exact planar_round_trip. Qed.
Print Assumptions C22_row_restored.
Theorem C22_row_restored_in_place : forall u0 row, 0 <= u0 -> 2 <= zlen row ->
  exists y, fwd_row u0 (u0 + zlen row) row = Ret y /\ zlen y = zlen row
         /\ inv_row_inplace u0 (u0 + zlen row) y = Ret row.
Proof. exact row_round_trip. Qed.
Print Assumptions C22_row_restored_in_place.
Example C22_case : fwd_row 3 8 [10; 20; 35; 7; 1] = Ret [-10; 23; 22; 11; -6]
  /\ inv_row_planar 3 8 [23; 11] [-10; 22; -6] = Ret [10; 20; 35; 7; 1].
Proof. vm_compute. auto. Qed.

(** ** C23.  [encode n] runs [n] levels of the streaming analysis on an image
    whose top-left sample has coordinates (u0, a); [decode] runs the streaming
    synthesis on the resulting sub-bands.  Every level must be at least one
    column wide ([reduced u k] = ceil(u / 2^k)); there is no condition on
    heights. *)
Theorem C23_transform_lossless : forall n u0 w a img, 0 <= u0 -> 0 <= w -> 0 <= a ->
  Forall (fun row => zlen row = w) img ->
  (forall k, (k < n)%nat -> reduced u0 k < reduced (u0 + w) k) ->
  exists p, encode n u0 (u0 + w) a (a + zlen img) img = Ret p
         /\ decode p u0 (u0 + w) a (a + zlen img) = Ret (map Some img).
Proof. exact image_round_trip. Qed.
Print Assumptions C23_transform_lossless.
(** Without the condition the encoder leaves its buffers: a one-column image
    at an odd position has no column left after the first level. *)
Theorem C23_empty_width_refuted : exists n u0 w a img,
  0 <= u0 /\ 0 < w /\ 0 <= a /\ Forall (fun row => zlen row = w) img /\
  encode n u0 (u0 + w) a (a + zlen img) img = UB.
Proof.
  exists 2%nat, 1, 1, 0, [[5]; [6]; [7]; [8]].
  split; [lia |]. split; [lia |]. split; [lia |]. split; [now repeat constructor | now vm_compute].
Qed.
Print Assumptions C23_empty_width_refuted.
Example C23_case :
  let img := [[1; 2; 3]; [4; 5; 7]; [9; 1; 1]; [0; 0; 0]; [255; 3; 4]] in
  (let* p := encode 2 1 4 1 6 img in decode p 1 4 1 6) = Ret (map Some img).
Proof. vm_compute. reflexivity. Qed.

(** ** C24.  Rows of any type, any lifting arithmetic [step], any horizontal
    filter [hor]; [m] = 1 (5/3) or 2 (9/7) rounds of lifting.  The sink
    receives rows a, a+1, ... once each in order, each the horizontally
    filtered row of the whole-image lifting ([lifted], DwtSpec). *)
Theorem C24_streamed_rows : forall T R (d : T) m a (l : list T) step (hor : T -> out R) single (y : Z -> R),
  m = 1 \/ m = 2 -> 0 <= a -> 2 <= zlen l ->
  (forall r, a <= r < a + zlen l -> hor (lifted Z.odd step (extended d a l) (Z.to_nat m) r) = Ret (y r)) ->
  fdwt_run (fdwt_geom m a (a + zlen l)) step hor single l
  = Ret (map (fun r => (Z.odd r, r, y r)) (range a (a + zlen l))).
Proof. exact @stream_forward. Qed.
Print Assumptions C24_streamed_rows.
Theorem C24_streamed_single_row : forall T R m a (x : T) step (hor : T -> out R) single,
  fdwt_run (fdwt_geom m a (a + 1)) step hor single [x] = let* y := hor (single x) in Ret [(Z.odd a, a, y)].
Proof. exact @stream_forward_one. Qed.
Print Assumptions C24_streamed_single_row.
(** For 5/3 this is the batch vertical transform followed by the row filter. *)
Theorem C24_streamed_equals_batch : forall u0 u1 a img ver outs, 0 <= a -> 1 <= zlen img ->
  fwd_ver a (a + zlen img) img = Ret ver -> mapM (analyse u0 u1) ver = Ret outs ->
  level_fwd u0 u1 a (a + zlen img) img
  = Ret (map (fun r => (Z.odd r, r, znth ([], []) outs (r - a))) (range a (a + zlen img))).
Proof. exact stream_forward_53. Qed.
Print Assumptions C24_streamed_equals_batch.
Example C24_case : fwd_ver 1 4 [[1; 2]; [4; 5]; [9; 1]] = Ret [[-3; -3]; [5; 3]; [5; -4]]
  /\ level_fwd 0 2 1 4 [[1; 2]; [4; 5]; [9; 1]]
     = Ret [(true, 1, ([-3], [0])); (false, 2, ([4], [-2])); (true, 3, ([1], [-9]))].
Proof. vm_compute. auto. Qed.
(** A 30-row run of the 9/7-shaped machine, with strings of operations for rows. *)
Example C24_case_long :
  let step := fun (r : Z) (k : nat) (t p n : Z) => 3 * t + p + n + Z.of_nat k in
  let l := map (fun i => i * i mod 17) (range 0 30) in
  fdwt_run (fdwt_geom 2 5 35) step Ret (fun x => x) l
  = Ret (map (fun r => (Z.odd r, r, lifted Z.odd step (extended 0 5 l) 2 r)) (range 5 35)).
Proof. vm_compute. reflexivity. Qed.

(** ** C25.  Exactly one row per position, in order, then nothing. *)
Theorem C25_pulled_rows : forall T (d : T) m a (l : list T) step single src n,
  m = 1 \/ m = 2 -> 0 <= a -> 2 <= zlen l ->
  (forall r, a <= r < a + zlen l -> src r = Ret (znth d l (r - a))) ->
  idwt_pulls (idwt_geom m a (a + zlen l)) step single src (Z.to_nat (zlen l) + n)
  = Ret (map (fun r => Some (lifted Z.even step (extended d a l) (Z.to_nat m) r)) (range a (a + zlen l)) ++ repeat None n).
Proof. exact @stream_inverse. Qed.
Print Assumptions C25_pulled_rows.
Theorem C25_pulled_single_row : forall T m a (x : T) step single src n, src a = Ret x ->
  idwt_pulls (idwt_geom m a (a + 1)) step single src (1 + n) = Ret (Some (single x) :: repeat None n).
Proof. exact @stream_inverse_one. Qed.
Print Assumptions C25_pulled_single_row.
(** 5/3 with the skipping of steps between all-zero rows: the rows are those
    of the batch transform. *)
Theorem C25_zero_skipping_equals_batch : forall w a img src n, 0 <= a -> 2 <= zlen img ->
  Forall (fun row => zlen row = w) img ->
  (forall r, a <= r < a + zlen img ->
     src r = Ret (znth [] img (r - a), forallb (fun v => v =? 0) (znth [] img (r - a)))) ->
  exists out l, inv_ver a (a + zlen img) img = Ret out /\ zlen out = zlen img
    /\ idwt_pulls (idwt_geom 1 a (a + zlen img)) (skipping inv_vstep) (inv_single a) src (Z.to_nat (zlen img) + n) = Ret l
    /\ map (option_map fst) l = map Some out ++ repeat None n.
Proof. exact stream_inverse_53. Qed.
Print Assumptions C25_zero_skipping_equals_batch.
(** The batch transform itself divides by zero for a lone row at an even
    position, which the streaming one handles. *)
Theorem C25_batch_single_even_row_refuted : exists img, inv_ver 0 (0 + zlen img) img = UB.
Proof. exists [[5]]. now vm_compute. Qed.
Print Assumptions C25_batch_single_even_row_refuted.
Example C25_case :
  let img := [[0; 0]; [0; 0]; [0; 0]; [8; 1]; [4; 5]] in
  inv_ver 1 6 img = Ret [[0; 0]; [0; 0]; [3; 0]; [7; 0]; [11; 5]]
  /\ exists l, idwt_pulls (idwt_geom 1 1 6) (skipping inv_vstep) (inv_single 1)
       (fun r => Ret (znth [] img (r - 1), forallb (fun v => v =? 0) (znth [] img (r - 1)))) 7 = Ret l
     /\ map (option_map fst) l
        = [Some [0; 0]; Some [0; 0]; Some [3; 0]; Some [7; 0]; Some [11; 5]; None; None].
Proof. vm_compute. split; [reflexivity |]. eexists. split; reflexivity. Qed.
