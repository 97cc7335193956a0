(** Code-blocks decoded in batches: lanes in lockstep, groups for the pool,
    runs of the serial path, scratch space.  Models
    source/core/coding/ht_block_decoding.cpp:1103-1231 (the AVX2 file has the
    same text) and source/core/coding/subband_row_buf.cpp:79-136, 335-411 and
    438-545.

    What a lane does is a parameter: the state of one lane, the sequence of
    iterations of the kernel, each of which may throw, and the rest of the
    block's decoding.  The length of the sequence and every choice in it that is
    not the lane's own depend on the template argument and on QW, QH and sstr
    only. *)
From Verif Require Import Base.

Record blk := Blk { k_id : Z; k_w : Z; k_h : Z; k_ht : bool }.

(** ht_dec_setup: the fields the driver reads. *)
Record su := Su { u_ok : bool; u_empty : bool; u_passes : Z }.

(** What a worker does that others can see: the set-up of a block, which
    rewrites the block's own bytes; the samples of a block stored, with the
    result; the failure flag; the counter. *)
Inductive ev := Prepared (b : blk) | Stored (b : blk) (ok : bool) | Failed | Left.

Section Batch.
  Variable lane : Type.
  Variable setup : blk -> su.                                     (* htj2k_dec_setup *)
  Variable start : blk -> lane.                                   (* ht_step1_lane *)
  Variable program : bool -> Z -> Z -> Z -> list (lane -> option lane).   (* ht_cleanup_step1_nway *)
  Variable finish : blk -> su -> lane -> Z -> option bool.        (* htj2k_dec_finish; None: exception *)
  Variable ebcot : blk -> bool.                                   (* j2k_decode; false: exception *)

  Definition half (v : Z) : Z := (v + 1) / 2.
  Definition sstr (b : blk) : Z := Z.land (k_w b + 2 + 7) (Z.lnot 7).

  (** ht_cleanup_step1_nway for one lane. *)
  Fixpoint run1 (p : list (lane -> option lane)) (l : lane) : option lane :=
    match p with [] => Some l | f :: p => match f l with Some l => run1 p l | None => None end end.

  (** One iteration for every lane, in order. *)
  Fixpoint each (f : lane -> option lane) (ls : list lane) : option (list lane) :=
    match ls with
    | [] => Some []
    | l :: ls => match f l with Some l => option_map (cons l) (each f ls) | None => None end
    end.
  (** ht_cleanup_step1_nway for several lanes. *)
  Fixpoint lock (p : list (lane -> option lane)) (ls : list lane) : option (list lane) :=
    match p with [] => Some ls | f :: p => match each f ls with Some ls => lock p ls | None => None end end.

  (** htj2k_decode_su, ht_block_decoding.cpp:1103-1126. *)
  Definition decode_su (b : blk) (u : su) : option bool :=
    if negb (u_ok u) then Some false else if u_empty u then Some true else
    match run1 (program (u_passes u =? 1) (half (k_w b)) (half (k_h b)) (sstr b)) (start b) with
    | Some l => finish b u l (sstr b)
    | None => None
    end.
  (** htj2k_decode, ht_block_decoding.cpp:1128-1130. *)
  Definition htj2k_decode (b : blk) : option bool := decode_su b (setup b).

  (** Blocks finished one after the other until one throws. *)
  Fixpoint in_turn (l : list (blk * option bool)) : list ev * bool :=
    match l with
    | [] => ([], false)
    | (b, None) :: _ => ([], true)
    | (b, Some r) :: l => let (e, t) := in_turn l in (Stored b r :: e, t)
    end.

  Definition same_size (a b : blk) : bool := (k_w a =? k_w b) && (k_h a =? k_h b).

  (** htj2k_decode_batch, ht_block_decoding.cpp:1143-1229, with BN lanes: what happens
      and whether an exception leaves it. *)
  Fixpoint batch (fuel BN : nat) (bs : list blk) : out (list ev * bool) :=
    match bs with
    | [] => Ret ([], false)
    | b0 :: rest =>
      match fuel with
      | O => NoFuel
      | S fuel =>
        let g := firstn BN bs in
        let key := (BN <=? length bs)%nat && forallb (fun b => same_size b b0) g in
        if negb key then
          match htj2k_decode b0 with
          | None => Ret ([Prepared b0], true)
          | Some r => let* (e, t) := batch fuel BN rest in Ret (Prepared b0 :: Stored b0 r :: e, t)
          end
        else
          let us := map setup g in
          let u0 := setup b0 in
          let group := forallb (fun u => u_ok u && negb (u_empty u)) us && forallb (fun u => Bool.eqb (u_passes u =? 1) (u_passes u0 =? 1)) us in
          let p := program (u_passes u0 =? 1) (half (k_w b0)) (half (k_h b0)) (sstr b0) in
          let done :=
            if negb group then map (fun bu => (fst bu, decode_su (fst bu) (snd bu))) (combine g us)
            else match lock p (map start g) with
                 | Some ls => map (fun x => (fst (fst x), finish (fst (fst x)) (snd (fst x)) (snd x) (sstr b0))) (combine (combine g us) ls)
                 | None => map (fun bu => (fst bu, match run1 p (start (fst bu)) with Some l => finish (fst bu) (snd bu) l (sstr b0) | None => None end)) (combine g us)
                 end in
          let (e, t) := in_turn done in
          if (t : bool) then Ret (map Prepared g ++ e, true)
          else let* (e', t') := batch fuel BN (skipn BN bs) in Ret (map Prepared g ++ e ++ e', t')
      end
    end.

  (** How many of the next blocks join [b0]: build_par_groups, subband_row_buf.cpp:93-98. *)
  Fixpoint extend (room : nat) (b0 : blk) (rest : list blk) : nat :=
    match room, rest with
    | S room, nb :: rest => if k_ht nb && same_size nb b0 then S (extend room b0 rest) else O
    | _, _ => O
    end.
  (** max_run - 1, or no further block, subband_row_buf.cpp:91-92. *)
  Definition further (lanes : Z) (b0 : blk) : nat :=
    if k_ht b0 && (1 <? lanes) then Z.to_nat ((if lanes <? 8 then lanes else 8) - 1) else O.

  (** build_par_groups, subband_row_buf.cpp:85-103: [idx << 8 | cnt] for each group. *)
  Fixpoint build_groups (fuel : nat) (lanes idx : Z) (bs : list blk) : out (list Z) :=
    match bs with
    | [] => Ret []
    | b0 :: rest =>
      match fuel with
      | O => NoFuel
      | S fuel =>
        let more := extend (further lanes b0) b0 rest in
        let cnt := 1 + Z.of_nat more in
        let* gs := build_groups fuel lanes (idx + cnt) (skipn more rest) in
        Ret (Z.lor (Z.shiftl idx 8) cnt :: gs)
      end
    end.

  Definition refused (e : ev) : bool := match e with Stored _ ok => negb ok | _ => false end.

  (** run_par_group, subband_row_buf.cpp:107-136: arrays of 8 for the blocks and results. *)
  Definition run_group (BN : nat) (tasks : list blk) (packed : Z) : out (list ev) :=
    let idx := Z.shiftr packed 8 in
    let cnt := Z.land packed 255 in
    if (8 <? cnt) || (zlen tasks <? idx + cnt) then UB else
    match firstn (Z.to_nat cnt) (skipn (Z.to_nat idx) tasks) with
    | [] => UB
    | (b0 :: _) as grp =>
      if k_ht b0 then
        let* (e, t) := batch (length grp) BN grp in
        Ret (e ++ (if t || existsb refused e then [Failed] else []) ++ [Left])
      else Ret (if ebcot b0 then [Stored b0 true; Left] else [Failed; Left])
    end.

  Fixpoint run_groups (BN : nat) (tasks : list blk) (gs : list Z) : out (list (list ev)) :=
    match gs with
    | [] => Ret []
    | g :: gs => let* e := run_group BN tasks g in let* es := run_groups BN tasks gs in Ret (e :: es)
    end.

  (** What the pool's tasks do for a strip: decode_strip_core,
      subband_row_buf.cpp:397-407, and the end of trigger_prefetch.  The number of groups
      is what par_cnt starts from. *)
  Definition pool_tasks (lanes : Z) (BN : nat) (tasks : list blk) : out (list (list ev)) :=
    let* gs := build_groups (length tasks) lanes 0 tasks in run_groups BN tasks gs.

  (** The run of the serial path, subband_row_buf.cpp:463-473: it ends at a code-block
      without data, here [None]. *)
  Fixpoint run_on (room : nat) (b0 : blk) (rest : list (option blk)) : list blk :=
    match room, rest with
    | S room, Some nb :: rest => if k_ht nb && same_size nb b0 then nb :: run_on room b0 rest else []
    | _, _ => []
    end.

  (** One row of code-blocks of a precinct decoded without a pool,
      subband_row_buf.cpp:438-545: what happens and whether it throws. *)
  Fixpoint serial_row (fuel : nat) (lanes : Z) (BN : nat) (row : list (option blk)) : out (list ev * bool) :=
    match row with
    | [] => Ret ([], false)
    | c :: rest =>
      match fuel with
      | O => NoFuel
      | S fuel =>
        match c with
        | None => serial_row fuel lanes BN rest
        | Some b0 =>
          let more := run_on (further lanes b0) b0 rest in
          let* (e, t) := if k_ht b0 then batch (S (length more)) BN (b0 :: more)
                         else Ret (if ebcot b0 then ([Stored b0 true], false) else ([], true)) in
          if t || (k_ht b0 && existsb refused e) then Ret (e, true)
          else let* (e', t') := serial_row fuel lanes BN (skipn (length more) rest) in Ret (e ++ e', t')
        end
      end
    end.
End Batch.

(** Sizes of one block's scratch: samples, states, contexts,
    subband_row_buf.cpp:335-336 and 347-349. *)
Definition round8 (v : Z) : Z := (v + 7) / 8 * 8.
Inductive pool := Samples | States | Contexts.
Definition row_len (k : pool) (b : blk) : Z :=
  match k with Samples => round8 (k_w b) | _ => round8 (k_w b) + 2 end.
Definition rows_of (k : pool) (b : blk) : Z :=
  match k with Samples => round8 (k_h b) | States => round8 (k_h b) + 2 | Contexts => round8 (k_h b) / 4 + 2 end.

(** The offsets and the total, subband_row_buf.cpp:337-350. *)
Fixpoint place (k : pool) (total : Z) (bs : list blk) : list Z * Z :=
  match bs with
  | [] => ([], total)
  | b :: bs => let (offs, t) := place k (total + row_len k b * rows_of k b) bs in (total :: offs, t)
  end.

(** Capacity of the pool after a sequence of strips, subband_row_buf.cpp:356-371. *)
Fixpoint grow (k : pool) (cap : Z) (strips : list (list blk)) : Z :=
  match strips with
  | [] => cap
  | bs :: strips => let total := snd (place k 0 bs) in grow k (if cap <? total then total else cap) strips
  end.

(** Capacity of the serial path's buffer once a run fits in it,
    subband_row_buf.cpp:475-495; the first block's size counts for all. *)
Definition serial_cap (k : pool) (cap : Z) (run : list blk) : Z :=
  match run with
  | [] => cap
  | b0 :: _ => let total := row_len k b0 * rows_of k b0 * zlen run in if cap <? total then total else cap
  end.
(** Where block [i] of a run headed by [b0] has row [y], column [x] of its scratch,
    subband_row_buf.cpp:513-518. *)
Definition serial_cell (k : pool) (b0 : blk) (i x y : Z) : Z := i * (row_len k b0 * rows_of k b0) + y * row_len k b0 + x.
