From Verif Require Import Base BaseLemmas HtTables HtBits.
Require Import Lia.

(** Fields of an encoder CxtVLC entry. *)
Definition ex_embk (cx : Z) := Z.land cx 15.
Definition ex_lw (cx : Z) := Z.land (Z.shiftr cx 4) 7.
Definition ex_cwd (cx : Z) := Z.shiftr cx 7.

Definition cxt_entry_ok (dec : list Z) (c rho emb cx w : Z) : bool :=
  let t := znth 0 dec (w + 128 * c) in
  (Z.shiftr (Z.land t 15) 1 =? ex_lw cx) && (Z.land t 1 =? (if emb =? 0 then 0 else 1))
  && (Z.land (Z.shiftr t 4) 15 =? rho) && (Z.shiftr t 12 =? ex_embk cx)
  && (Z.land (Z.shiftr t 8) 15 =? Z.land emb (ex_embk cx)).

Definition cxt_word_ok (rho emb cx : Z) : bool :=
  (0 <=? ex_cwd cx) && (ex_cwd cx <? 2 ^ ex_lw cx)
  && (Z.land (ex_embk cx) rho =? ex_embk cx) && (if emb =? 0 then ex_embk cx =? 0 else true).

Definition cxt_sweep (enc dec : list Z) : bool :=
  forallb (fun c => forallb (fun rho => forallb (fun emb =>
    if Z.land emb rho =? emb then
      let cx := znth 0 enc (emb + Z.shiftl rho 4 + 256 * c) in
      cxt_word_ok rho emb cx &&
      (if (c =? 0) && (rho =? 0) then ex_lw cx =? 0
       else forallb (fun w => if Z.land w (2 ^ ex_lw cx - 1) =? ex_cwd cx
                              then cxt_entry_ok dec c rho emb cx w else true) (zseq 128))
    else true) (zseq 16)) (zseq 16)) (zseq 8).

Lemma cxt_sweep0 : cxt_sweep enc_CxtVLC_table0 dec_CxtVLC_table0_fast_16 = true.
Proof. vm_compute. reflexivity. Qed.
Lemma cxt_sweep1 : cxt_sweep enc_CxtVLC_table1 dec_CxtVLC_table1_fast_16 = true.
Proof. vm_compute. reflexivity. Qed.

(** Fields of a decoder UVLC entry. *)
Definition du_pl (r : Z) := Z.land r 7.
Definition du_sl (r : Z) := Z.land (Z.shiftr r 3) 15.
Definition du_ql (r : Z) := Z.land (Z.shiftr r 7) 7.
Definition du_p0 (r : Z) := Z.land (Z.shiftr r 10) 7.
Definition du_p1 (r : Z) := Z.shiftr r 13.
Definition off (u : Z) : Z := if u =? 0 then 0 else 1.

Definition uvlc_entry_ok (dec : list Z) (u0 u1 mo len cwd w : Z) : bool :=
  let r := znth 0 dec (w + 64 * off u0 + 128 * off u1 + mo) in
  let tmp := Z.land (Z.shiftr cwd (du_pl r)) (2 ^ du_sl r - 1) in
  (du_pl r + du_sl r =? len)
  && (du_p0 r + Z.land tmp (wrap32 (Z.lnot (Z.shiftl 255 (du_ql r)))) =? u0)
  && (du_p1 r + Z.shiftr tmp (du_ql r) =? u1).

Definition uvlc_sweep (enc dec : list Z) (melmode : bool) : bool :=
  forallb (fun u0 => forallb (fun u1 =>
      let t := znth 0 enc (u0 + Z.shiftl u1 5) in
      let len := Z.land t 255 in
      let cwd := Z.shiftr t 8 in
      let mo := if melmode && (2 <? Z.min u0 u1) then 64 else 0 in
      (0 <=? cwd) && (cwd <? 2 ^ len) && (len <=? 18) &&
      forallb (fun w => if Z.land w (2 ^ Z.min 6 len - 1) =? Z.land cwd (2 ^ Z.min 6 len - 1)
                        then uvlc_entry_ok dec u0 u1 mo len cwd w else true) (zseq 64))
    (zseq 32)) (zseq 32).

Lemma uvlc_sweep0 : uvlc_sweep enc_UVLC_table0 uvlc_dec_0 true = true.
Proof. vm_compute. reflexivity. Qed.
Lemma uvlc_sweep1 : uvlc_sweep enc_UVLC_table1 uvlc_dec_1 false = true.
Proof. vm_compute. reflexivity. Qed.
