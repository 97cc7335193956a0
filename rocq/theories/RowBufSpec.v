(** What a row buffer is to deliver: the rows of a subband cut into
    code-blocks. *)
From Verif Require Import Base GeoModel GeoSpec RowBufModel.

(** The code-blocks of a subband. *)
Definition block (B : sband) (k : cblk) : Prop := exists p, In p (sb_prec B) /\ In k (pb_blocks p).

(** The coefficient at column [x], row [y]: what the frame holds for the
    code-block it lies in, 0 if the frame holds nothing. *)
Definition coefficient (B : sband) (F : frame) (x y v : Z) : Prop :=
  exists k, block B k /\ inside (cb_pos k) x y /\
    match F k with
    | Empty => v = 0
    | Good f _ => v = f (y - y0 (cb_pos k)) (x - x0 (cb_pos k))
    | Bad _ => False
    end.

(** The code-blocks of a precinct form [pb_ny] rows of [pb_nx]. *)
Definition grid_ok (cbh : Z) (p : pband) : Prop :=
  0 <= pb_nx p /\ 0 <= pb_ny p /\ zlen (pb_blocks p) = pb_nx p * pb_ny p /\
  exists edge : Z -> Z,
    edge 0 = y0 (pb_pos p) /\ (0 < pb_nx p * pb_ny p -> edge (pb_ny p) = y1 (pb_pos p)) /\
    (forall r, 0 <= r < pb_ny p -> edge r < edge (r + 1) <= y0 (pb_pos p) + (r + 1) * cbh) /\
    forall r c k, 0 <= r < pb_ny p -> 0 <= c < pb_nx p ->
      nth_error (pb_blocks p) (Z.to_nat (r * pb_nx p + c)) = Some k ->
      y0 (cb_pos k) = edge r /\ y1 (cb_pos k) = edge (r + 1).

(** The code-blocks partition the subband. *)
Record band_ok (B : sband) : Prop := {
  bo_cbh : 0 < sb_cbh B;
  bo_y : 0 <= y0 (sb_pos B) < y1 (sb_pos B);
  bo_x : 0 <= x0 (sb_pos B) < x1 (sb_pos B);
  bo_stride : x1 (sb_pos B) - x0 (sb_pos B) <= sb_stride B;
  bo_grid : forall p, In p (sb_prec B) -> grid_ok (sb_cbh B) p;
  bo_block : forall k, block B k ->
    x0 (sb_pos B) <= x0 (cb_pos k) < x1 (cb_pos k) /\ x1 (cb_pos k) <= x1 (sb_pos B) /\
    y0 (sb_pos B) <= y0 (cb_pos k) < y1 (cb_pos k) /\ y1 (cb_pos k) <= y1 (sb_pos B);
  bo_cover : forall x y, inside (sb_pos B) x y -> exists k, block B k /\ inside (cb_pos k) x y;
  bo_disjoint : forall k k' x y, block B k -> block B k' -> inside (cb_pos k) x y -> inside (cb_pos k') x y ->
    k = k' }.

(** No strip of [sb_cbh] rows, counted from the top of the subband, ends
    inside a code-block. *)
Definition fits (B : sband) : Prop := forall k n, block B k ->
  ~ (y0 (cb_pos k) < y0 (sb_pos B) + n * sb_cbh B < y1 (cb_pos k)).

(** A decoder that fails stores only samples of its code-block and of the row
    below it. *)
Definition fails_inside (B : sband) (F : frame) : Prop :=
  forall k l i j v, block B k -> F k = Bad l -> In (i, j, v) l -> 0 <= i <= hei k /\ 0 <= j < wid k.

(** Code-blocks whose decoder stores a row too many: the row is not one of
    another code-block of the same strip. *)
Definition frame_ok (B : sband) (F : frame) : Prop :=
  (forall k f g, block B k -> F k = Good f (Some g) -> Z.odd (hei k) = true ->
     y1 (cb_pos k) < y1 (sb_pos B) -> exists n, y1 (cb_pos k) = y0 (sb_pos B) + n * sb_cbh B) /\
  fails_inside B F.

(** Along the vertical axis the subband starts at a multiple of the code-block
    height of the COD or COC marker, or lies between two multiples. *)
Definition aligned (a : axis_geo) : Prop :=
  fst (band_span a) mod 2 ^ a_cb a = 0 \/
  (snd (band_span a) - 1) / 2 ^ a_cb a = fst (band_span a) / 2 ^ a_cb a.
(** Precincts are at least as high as code-blocks; or the subband starts at a
    multiple and code-blocks have an even height in it. *)
Definition no_thin (a : axis_geo) : Prop :=
  a_cb a <= band_pp a \/ fst (band_span a) mod 2 ^ a_cb a = 0 /\ 1 <= block_log a.

(** No code-block of the frame is rejected. *)
Definition clean (B : sband) (F : frame) : Prop := forall k, block B k -> is_bad (F k) = false.

(** The row at index [p] of the buffer is row [y] of the subband. *)
Definition row_is (B : sband) (F : frame) (s : rowbuf) (p y : Z) : Prop :=
  forall x, x0 (sb_pos B) <= x < x1 (sb_pos B) ->
    exists v, coefficient B F x y v /\ cells s (p + (x - x0 (sb_pos B))) = v.

(** The histories of a row buffer: frame after frame (each allowed by [ok]),
    rows asked for in any order, the pool working at any time, and exceptions
    after which the caller goes on with the next frame. *)
Inductive history (B : sband) (many : bool) (ok : frame -> Prop) : frame -> rowbuf -> Prop :=
| h_init : forall F m, ok F -> history B many ok F (init B m)
| h_pool : forall F s s', history B many ok F s -> pool1 B s (Ret s') -> history B many ok F s'
| h_row : forall F s y p s', history B many ok F s -> y0 (sb_pos B) <= y < y1 (sb_pos B) ->
    row_ptr B many F s y (Ret (Some p, s')) -> history B many ok F s'
| h_frame : forall F F' s s', history B many ok F s -> ok F' -> next_frame B s (Ret s') ->
    history B many ok F' s'
| h_thrown : forall F F' s y s1 s', history B many ok F s -> y0 (sb_pos B) <= y < y1 (sb_pos B) ->
    row_ptr B many F s y (Ret (None, s1)) -> ok F' -> next_frame B s1 (Ret s') ->
    history B many ok F' s'.

(** The pool works on, while nobody asks for a row. *)
Inductive pool_star (B : sband) : rowbuf -> rowbuf -> Prop :=
| ps_refl : forall s, pool_star B s s
| ps_step : forall s s1 s2, pool1 B s (Ret s1) -> pool_star B s1 s2 -> pool_star B s s2.
