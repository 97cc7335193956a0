(** Model of the codestream walker, source/core/jpip/codestream_walker.cpp.
    [size_t] is 64 bits and no sum here reaches 2^64 (a buffer offset plus a
    32-bit length), so offsets are unbounded. *)
From Verif Require Import Base Be.

(** TilePartLocation, codestream_walker.hpp:26-34. *)
Record tpart := Tp {
  tp_sot : Z; tp_header_end : Z; tp_body_offset : Z; tp_body_end : Z;
  tp_tile : Z; tp_idx : Z; tp_cnt : Z }.
(** CodestreamLayout, codestream_walker.hpp:36-46; soc_offset is always 0. *)
Record layout := Layout { l_header_end : Z; l_eoc : Z; l_parts : list tpart }.

(** codestream_walker.cpp:11-14 *)
Definition SOC : Z := 65359.  (* FF4F *)
Definition SOT : Z := 65424.  (* FF90 *)
Definition SOD : Z := 65427.  (* FF93 *)
Definition EOC : Z := 65497.  (* FFD9 *)

(** marker_has_no_length, codestream_walker.cpp:26-32.  The last test looks at
    the low byte only, whatever the high byte is. *)
Definition no_length (m : Z) : bool :=
  if (m =? SOC) || (m =? SOD) || (m =? EOC) then true
  else if m =? 65426 then true
  else let low := Z.land m 255 in (48 <=? low) && (low <=? 63).

(** The inner loop, codestream_walker.cpp:77-114: look for SOD from [j].
    [Ret (Some j)]: SOD at [j]; [Ret None]: the function returns (either from
    inside the loop or because the loop ran off the end). *)
Fixpoint find_sod (fuel : nat) (bytes : list Z) (j : Z) : out (option Z) :=
  match fuel with
  | O => NoFuel
  | S fuel =>
    let len := zlen bytes in
    if j + 2 <=? len then
      let* m2 := rd16 bytes j in
      if m2 =? SOD then Ret (Some j)
      else if no_length m2 then find_sod fuel bytes (j + 2)
      else if len <? j + 4 then Ret None
      else
        let* Lmar := rd16 bytes (j + 2) in
        if (Lmar <? 2) || (len <? j + 2 + Lmar) then Ret None
        else find_sod fuel bytes (j + (2 + Lmar))
    else Ret None
  end.

(** The outer loop, codestream_walker.cpp:52-133.  Every exit returns true with
    what has been collected; [l_eoc] starts as [len] (line 46). *)
Fixpoint walk_loop (fuel : nat) (bytes : list Z) (i : Z) (seen : bool) (o : layout) : out layout :=
  match fuel with
  | O => NoFuel
  | S fuel =>
    let len := zlen bytes in
    if i + 2 <=? len then
      let* m := rd16 bytes i in
      if m =? EOC then Ret (Layout (l_header_end o) i (l_parts o))
      else if m =? SOT then
        if len <? i + 12 then Ret o
        else
          let* Lsot := rd16 bytes (i + 2) in
          if negb (Lsot =? 10) then Ret o
          else
            let* Isot := rd16 bytes (i + 4) in
            let* Psot := rd32 bytes (i + 6) in
            let* TPsot := rd bytes (i + 10) in
            let* TNsot := rd bytes (i + 11) in
            let o1 := if seen then o else Layout i (l_eoc o) (l_parts o) in
            let* f := find_sod (S (length bytes)) bytes (i + 12) in
            match f with
            | None => Ret o1
            | Some j =>
              let body_end :=
                if negb (Psot =? 0) then if len <? i + Psot then len else i + Psot
                else len in
              let tp := Tp i j (j + 2) body_end Isot TPsot TNsot in
              walk_loop fuel bytes body_end true (Layout (l_header_end o1) (l_eoc o1) (l_parts o1 ++ [tp]))
            end
      else if no_length m then walk_loop fuel bytes (i + 2) seen o
      else if len <? i + 4 then Ret o
      else
        let* Lmar := rd16 bytes (i + 2) in
        if (Lmar <? 2) || (len <? i + 2 + Lmar) then Ret o
        else walk_loop fuel bytes (i + (2 + Lmar)) seen o
    else Ret o
  end.

(** walk_codestream, codestream_walker.cpp:36-136, with non-null pointers.
    [None]: the function returns false. *)
Definition walk_codestream (bytes : list Z) : ex layout :=
  let len := zlen bytes in
  if len <? 2 then throw
  else
    let* m := rd16 bytes 0 in
    if negb (m =? SOC) then throw
    else
      let* o := walk_loop (S (length bytes)) bytes 2 false (Layout 0 len []) in
      ret o.
