(** Model of j2c_src_memory, source/core/codestream/codestream_source.cpp:32-130.
    [data] is the codestream in the buffer; its first [len] bytes are all that
    may be read through these functions.  Positions are uint32_t. *)
From Verif Require Import Base.

(** codestream.hpp:41-47; [data = None] is the null pointer *)
Record src := Src { data : option (list Z); pos : Z; len : Z }.

(** A call returns a value or throws; either way it may have moved. *)
Definition res (A : Type) : Type := out (src * option A).
Definition good {A} (s : src) (a : A) : res A := Ret (s, Some a).
Definition fail {A} (s : src) : res A := Ret (s, None).
Definition andthen {A B} (m : res A) (f : src -> A -> res B) : res B :=
  match m with Ret (s, Some a) => f s a | Ret (s, None) => Ret (s, None) | UB => UB | NoFuel => NoFuel end.

Definition src0 : src := Src None 0 0.
(** codestream_source.cpp:32-59 and the copy into the buffer that follows each
    call, interface/decoder.cpp:223-227; borrow_memory (61-77) sets the same
    fields.  Over 4 GiB - 16 it throws. *)
Definition set_memory (s : src) (input : list Z) : option src :=
  if two32 - 1 - 16 <? zlen input then None else Some (Src (Some input) 0 (wrap32 (zlen input))).

(** buf[i]: outside the input is undefined *)
Definition at_buf (s : src) (i : Z) : out Z :=
  match data s with Some d => rd d i | None => UB end.

(** codestream_source.cpp:79-87 *)
Definition get_byte (s : src) : res Z :=
  if wrap32 (len s - 1) <? pos s then fail s else
  let* b := at_buf s (pos s) in
  good (Src (data s) (wrap32 (pos s + 1)) (len s)) b.

(** codestream_source.cpp:89-103; memmove of the bytes at [pos] *)
Definition get_N_byte (s : src) (length : Z) : res (list Z) :=
  if (len s <? pos s) || (wrap32 (len s - pos s) <? length) then fail s else
  match data s with
  | Some d =>
    if pos s + length <=? zlen d then good (Src (data s) (wrap32 (pos s + length)) (len s)) (ztake length (zskip (pos s) d)) else UB
  | None => if length =? 0 then good (Src (data s) (wrap32 (pos s + length)) (len s)) [] else UB
  end.

(** codestream_source.cpp:105-112; the order of evaluation of the two calls is
    the one compilers give, left to right *)
Definition get_word (s : src) : res Z :=
  if wrap32 (len s - 2) <? pos s then fail s else
  andthen (get_byte s) (fun s a => andthen (get_byte s) (fun s b => good s ((Z.shiftl a 8 + b) mod 65536))).

(** codestream_source.cpp:114-121 *)
Definition rewind_2bytes (s : src) : res unit :=
  if pos s <? 2 then fail s else good (Src (data s) (pos s - 2) (len s)) tt.

(** codestream_source.cpp:123-130 *)
Definition forward_Nbytes (s : src) (N : Z) : res unit :=
  if wrap32 (pos s + N) <=? len s then good (Src (data s) (wrap32 (pos s + N)) (len s)) tt else fail s.

(** codestream.hpp:75 *)
Definition get_remaining (s : src) : Z := wrap32 (len s - pos s).

Inductive op := GetByte | GetWord | GetN (n : Z) | Rewind | Forward (n : Z).
(** The bytes a call delivers. *)
Definition exec (s : src) (o : op) : res (list Z) :=
  match o with
  | GetByte => andthen (get_byte s) (fun s b => good s [b])
  | GetWord => andthen (get_word s) (fun s v => good s [v / 256; v mod 256])
  | GetN n => get_N_byte s n
  | Rewind => andthen (rewind_2bytes s) (fun s _ => good s [])
  | Forward n => andthen (forward_Nbytes s n) (fun s _ => good s [])
  end.
(** A sequence of calls whose exceptions are all caught. *)
Fixpoint run (s : src) (ops : list op) : out (src * list (option (list Z))) :=
  match ops with
  | [] => Ret (s, [])
  | o :: ops =>
    let* (s, r) := exec s o in let* (s, rs) := run s ops in Ret (s, r :: rs)
  end.
