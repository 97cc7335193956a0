(** C20 and C21: the reversible colour transform. *)
From Verif Require Import Base ColorModel ColorProofs FloatProofs.

(** ** C20.  Planes of any number of rows; the first [w] samples of each row
    are 29-bit signed integers.  The second function gives back exactly the
    original planes (padding included) and neither is undefined. *)
Theorem C20_rct_lossless : forall w p0 p1 p2,
  length p0 = length p1 -> length p1 = length p2 ->
  (forall r, In r (p0 ++ p1 ++ p2) -> (w <= length r)%nat /\ Forall (fun v => - 2 ^ 28 <= v < 2 ^ 28) (firstn w r)) ->
  exists q0 q1 q2, cvt_rgb_to_ycbcr_rev w p0 p1 p2 = Ret (q0, q1, q2) /\
                   cvt_ycbcr_to_rgb_rev w q0 q1 q2 = Ret (p0, p1, p2).
Proof. exact rct_lossless. Qed.
Print Assumptions C20_rct_lossless.
Example C20_case : cvt_rgb_to_ycbcr_rev 2 [[255; 3; 99]] [[0; 2; 98]] [[254; 255; 97]]
   = Ret ([[127; 65; 99]], [[254; 253; 98]], [[255; 1; 97]]) /\
   cvt_ycbcr_to_rgb_rev 2 [[127; 65; 99]] [[254; 253; 98]] [[255; 1; 97]]
   = Ret ([[255; 3; 99]], [[0; 2; 98]], [[254; 255; 97]]).
Proof. vm_compute. auto. Qed.

(** ** C21 *)
Theorem C21_fused_equals_two_step : forall fr fg fb y cb cr r g b,
  - 2 ^ 31 <= y < 2 ^ 31 -> - 2 ^ 31 <= cb < 2 ^ 31 -> - 2 ^ 31 <= cr < 2 ^ 31 ->
  f_ds fr = 0 -> f_ds fg = 0 -> f_ds fb = 0 ->
  inv_rct y cb cr = Ret (r, g, b) ->
  fused_rct fr fg fb y cb cr =
    let* R := finalize_sample fr r in let* G := finalize_sample fg g in
    let* B := finalize_sample fb b in Ret (R, G, B).
Proof. exact fused_two_step. Qed.
Print Assumptions C21_fused_equals_two_step.
Theorem C21_fused_in_range : forall fr fg fb y cb cr r g b,
  f_min fr <= f_max fr -> f_min fg <= f_max fg -> f_min fb <= f_max fb ->
  fused_rct fr fg fb y cb cr = Ret (r, g, b) ->
  f_min fr <= r <= f_max fr /\ f_min fg <= g <= f_max fg /\ f_min fb <= b <= f_max fb.
Proof. exact fused_range. Qed.
Print Assumptions C21_fused_in_range.
(** In-range originals of up to 24 bits come back exactly through level
    shift, forward transform, the decoder's int -> float conversion, fused
    inverse transform, level shift and clamp; rows of any width. *)
Theorem C21_original_samples_restored : forall bd sgn w a b c, 1 <= bd <= 24 ->
  (w <= length a)%nat -> (w <= length b)%nat -> (w <= length c)%nat ->
  Forall (sample_ok bd sgn) (firstn w a) -> Forall (sample_ok bd sgn) (firstn w b) ->
  Forall (sample_ok bd sgn) (firstn w c) ->
  exists a' b' c', row3 (encode_px bd sgn) w a b c = Ret (a', b', c') /\
                   row3 (decode_px bd sgn) w a' b' c' = Ret (a, b, c).
Proof. exact mct_row_lossless. Qed.
Print Assumptions C21_original_samples_restored.
(** The conversion used on the way is IEEE round-to-nearest-even. *)
Theorem C21_conversion_nearest : forall v,
  is_float (f32_of_i32 v) /\
  (forall r, is_float r -> Z.abs (f32_of_i32 v - v) <= Z.abs (r - v)) /\
  (forall r, is_float r -> r <> f32_of_i32 v -> Z.abs (f32_of_i32 v - v) = Z.abs (r - v) ->
   exists m e, f32_of_i32 v = m * 2 ^ e /\ 2 ^ 23 <= Z.abs m <= 2 ^ 24 /\ Z.even m = true /\ 0 <= e).
Proof.
  intros v. split; [apply f32_is_float|]. split; [apply f32_nearest|apply f32_tie].
Qed.
Print Assumptions C21_conversion_nearest.
Example C21_conversion_case :
  map f32_of_i32 [16777217; 16777219; -33554435; 2147483647; 7] = [16777216; 16777220; -33554436; 2147483648; 7].
Proof. vm_compute. reflexivity. Qed.
(** Not so for deeper components: the detour through binary32 loses bits. *)
Theorem C21_deep_samples_refuted : exists r g b y cb cr,
  sample_ok 25 false r /\ sample_ok 25 false g /\ sample_ok 25 false b /\
  encode_px 25 false r g b = Ret (y, cb, cr) /\ decode_px 25 false y cb cr <> Ret (r, g, b).
Proof. exact mct_25bit_lossy. Qed.
Print Assumptions C21_deep_samples_refuted.
Example C21_case : row3 (encode_px 8 false) 2 [255; 0] [3; 128] [77; 1] = Ret ([-44; -64], [74; -127], [252; -128])
  /\ row3 (decode_px 8 false) 2 [-44; -64] [74; -127] [252; -128] = Ret ([255; 0], [3; 128], [77; 1]).
Proof. vm_compute. auto. Qed.
