(** Model of j2c_dst_memory, source/core/codestream/codestream.hpp:78-138 and
    codestream_destination.cpp:35-91.  An allocation that fails (bad_alloc) and
    an output stream that refuses data are not modelled. *)
From Verif Require Import Base.

Definition SIZE_MAX : Z := 2 ^ 64 - 1.

(** codestream.hpp:86-92; [buf] is the allocation, [None] where never written *)
Record dst := Dst { buf : list (option Z); capacity : Z; pos : Z; is_flushed : bool }.
Definition dst0 : dst := Dst [] 0 0 false.

(** codestream.hpp:101-108 *)
Fixpoint grow (fuel : nat) (new_cap need : Z) : out Z :=
  match fuel with
  | O => NoFuel
  | S fuel =>
    if new_cap <? need then
      if SIZE_MAX / 2 <? new_cap then Ret need else grow fuel (wrap64 (new_cap * 2)) need
    else Ret new_cap
  end.

(** Reading the first [n] entries of an allocation, or writing [l] at [i];
    outside it is undefined. *)
Definition mem_get (m : list (option Z)) (n : Z) : out (list (option Z)) :=
  if n <=? zlen m then Ret (ztake n m) else UB.
Definition mem_put (m : list (option Z)) (i : Z) (l : list (option Z)) : out (list (option Z)) :=
  if (0 <=? i) && (i + zlen l <=? zlen m) then Ret (ztake i m ++ l ++ zskip (i + zlen l) m) else UB.

(** codestream.hpp:96-114 *)
Definition ensure_capacity (d : dst) (need : Z) : out dst :=
  if need <=? capacity d then Ret d else
  let* new_cap := grow 65 (if capacity d =? 0 then 1024 else capacity d) need in
  let nb := repeat None (Z.to_nat new_cap) in
  let* nb := if pos d =? 0 then Ret nb else let* old := mem_get (buf d) (pos d) in mem_put nb 0 old in
  Ret (Dst nb new_cap (pos d) (is_flushed d)).

(** codestream_destination.cpp:35-39 *)
Definition put_byte (d : dst) (b : Z) : out dst :=
  let* d := ensure_capacity d (wrap64 (pos d + 1)) in
  let* m := mem_put (buf d) (pos d) [Some b] in
  Ret (Dst m (capacity d) (wrap64 (pos d + 1)) (is_flushed d)).
(** codestream_destination.cpp:41-47 *)
Definition put_word (d : dst) (w : Z) : out dst :=
  let upper_byte := Z.shiftr w 8 mod 256 in
  let lower_byte := Z.land w 255 mod 256 in
  let* d := put_byte d upper_byte in put_byte d lower_byte.
(** codestream_destination.cpp:49-55 *)
Definition put_dword (d : dst) (w : Z) : out dst :=
  let upper_word := Z.shiftr w 16 mod 65536 in
  let lower_word := Z.land w 65535 mod 65536 in
  let* d := put_word d upper_word in put_word d lower_word.
(** codestream_destination.cpp:57-62 *)
Definition put_N_bytes (d : dst) (l : list Z) : out dst :=
  let length := zlen l in
  let* d := ensure_capacity d (wrap64 (pos d + length)) in
  let* m := mem_put (buf d) (pos d) (map Some l) in
  Ret (Dst m (capacity d) (wrap64 (pos d + length)) (is_flushed d)).
(** codestream.hpp:123 *)
Definition reserve (d : dst) (n : Z) : out dst := ensure_capacity d n.
(** codestream.hpp:127-130 *)
Definition clear (d : dst) : dst := Dst (buf d) (capacity d) 0 false.
(** codestream_destination.cpp:64-77: the bytes appended to the stream *)
Definition flush_file (d : dst) : out (list (option Z)) :=
  if pos d =? 0 then Ret [] else mem_get (buf d) (pos d).
(** codestream_destination.cpp:79-89: the vector afterwards, and success *)
Definition flush_vector (d : dst) (obuf : list (option Z)) : out (dst * list (option Z) * bool) :=
  if is_flushed d then Ret (d, obuf, false) else
  let* v := if pos d =? 0 then Ret [] else mem_get (buf d) (pos d) in
  Ret (Dst (buf d) (capacity d) (pos d) true, v, true).
(** codestream_destination.cpp:91 *)
Definition get_length (d : dst) : Z := pos d.

Inductive op := PutByte (b : Z) | PutWord (w : Z) | PutDword (w : Z) | PutN (l : list Z) | Reserve (n : Z) | Clear | FlushFile | FlushVector.
(** What the program sees: appended to the file, left in the vector with its
    success. *)
Inductive obs := Nothing | ToFile (l : list (option Z)) | ToVector (l : list (option Z)) (ok : bool).
Definition exec (d : dst) (v : list (option Z)) (o : op) : out (dst * list (option Z) * obs) :=
  match o with
  | PutByte b => let* d := put_byte d b in Ret (d, v, Nothing)
  | PutWord w => let* d := put_word d w in Ret (d, v, Nothing)
  | PutDword w => let* d := put_dword d w in Ret (d, v, Nothing)
  | PutN l => let* d := put_N_bytes d l in Ret (d, v, Nothing)
  | Reserve n => let* d := reserve d n in Ret (d, v, Nothing)
  | Clear => Ret (clear d, v, Nothing)
  | FlushFile => let* l := flush_file d in Ret (d, v, ToFile l)
  | FlushVector => let* r := flush_vector d v in let '(d, v, ok) := r in Ret (d, v, ToVector v ok)
  end.
Fixpoint run (d : dst) (v : list (option Z)) (ops : list op) : out (dst * list obs) :=
  match ops with
  | [] => Ret (d, [])
  | o :: ops =>
    let* r := exec d v o in let '(d, v, e) := r in
    let* (d, es) := run d v ops in Ret (d, e :: es)
  end.
