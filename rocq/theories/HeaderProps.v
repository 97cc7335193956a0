(** C64: reading a main header is safe for every input.
    C65: a decoder that is used again reads the next header as a new one would.
    C66: the colour transform and component sizes. *)
From Coq Require Import Bool.
From Verif Require Import Base BaseLemmas SourceModel MarkerModel MarkerSafe MarkerRound HeaderRound MarkerSpec MarkerProps.

(** ** C64 *)

(** parse() on the [zlen input] bytes of [input], followed in memory by
    whatever the buffer holds behind them: it ends with a header and a
    position inside the input, or with an exception, and which one, the
    header and the position do not depend on the bytes behind the input. *)
Theorem C64_header_safe_partial : forall input h, bytes_ok input -> 1 <= zlen input <= 2 ^ 32 - 65552 ->
  (forall a b, input <> a ++ [255; 96; 0; 2] ++ b) ->
  (forall pad, 2 <= zlen pad -> parse_main (Src (Some (input ++ pad)) 0 (zlen input)) h = throw)
  \/ exists p h', 0 <= p <= zlen input - 2 /\ forall pad, 2 <= zlen pad ->
       parse_main (Src (Some (input ++ pad)) 0 (zlen input)) h = ret (Src (Some (input ++ pad)) p (zlen input), h').
Proof.
  intros input h Hb Hn Hno. assert (Hn' : 1 <= zlen input <= two32 - 65552) by exact Hn. destruct (header_same input Hb Hn' Hno h) as (r & Hr & Hp). unfold parse_main.
  destruct r as [[p h']|].
  - right. exists (p - 2), h'. split; [lia|]. intros pad Hpad. rewrite Hr by exact Hpad. unfold place. cbn [option_map fst snd bindx].
    unfold rewind_2bytes. cbn [pos data len]. replace (p <? 2) with false by lia. reflexivity.
  - left. intros pad Hpad. rewrite Hr by exact Hpad. reflexivity.
Qed.
Print Assumptions C64_header_safe_partial.

(** A header with SIZ, COD, QCD and an unknown segment meets the hypotheses. *)
Definition ex_input : list Z :=
  w16 M_SOC ++ write_siz ex_siz ++ [255; 119; 0; 4; 1; 2] ++ write_cod 12 (Cod 0 256 [0; 4; 4; 64; 1]) ++ write_qcd true 4 (Qcd 32 [64]) ++ [255; 144; 0; 10].
Example C64_example : bytes_ok ex_input /\ 1 <= zlen ex_input <= 2 ^ 32 - 65552 /\ (forall a b, ex_input <> a ++ [255; 96; 0; 2] ++ b)
  /\ exists h', parse_main (Src (Some (ex_input ++ [7; 7])) 0 (zlen ex_input)) hdr0 = ret (Src (Some (ex_input ++ [7; 7])) (zlen ex_input - 4) (zlen ex_input), h').
Proof.
  split; [repeat constructor; cbn; try lia|]. split; [vm_compute; split; discriminate|]. split.
  - intros a b E. assert (Hin : In 96 ex_input) by (rewrite E; apply in_or_app; right; right; left; reflexivity).
    vm_compute in Hin. repeat (destruct Hin as [Hin|Hin]; [discriminate Hin|]). exact Hin.
  - eexists. vm_compute. reflexivity.
Qed.

(** A PPM segment of length 2 has no index byte; the reader then takes the
    wrapped length 65535 for the number of bytes to copy. *)
Theorem C64_empty_ppm_refuted : exists input, bytes_ok input /\ zlen input = 8 /\
  forall pad, zlen pad = 16 -> parse_main (Src (Some (input ++ pad)) 0 (zlen input)) hdr0 = UB.
Proof.
  exists [255; 79; 255; 96; 0; 2; 255; 144]. split; [repeat constructor; lia|]. split; [reflexivity|]. intros pad Hpad.
  do 16 (destruct pad as [|? pad]; [discriminate Hpad|]). destruct pad as [|? pad]; [reflexivity|]. exfalso. revert Hpad. unfold zlen. cbn [length]. lia.
Qed.
Print Assumptions C64_empty_ppm_refuted.

(** ** C65 *)

Lemma parser_reuse w C : match main_parser w None with
  | None => main_parser w C = None
  | Some f => exists f2, main_parser w C = Some f2 /\ forall L b g x, f L b g = ret x -> f2 L b g = ret x
  end.
Proof.
  unfold main_parser. repeat (match goal with |- context[if ?c then _ else _] => destruct c end; [eexists; split; [reflexivity|]; intros; first [assumption|cbn [with_C] in *; discriminate]|]). reflexivity.
Qed.

Lemma segments_reuse B : forall fuel s h0 s' h0', before h0 = [] -> read_segments fuel s h0 = ret (s', h0') ->
  before h0' = [] /\ read_segments fuel s (Hdr B (now h0) (ppm h0)) = ret (s', Hdr B (now h0') (ppm h0')).
Proof.
  induction fuel as [|fuel IH]; intros s h0 s' h0' Hb H; cbn [read_segments] in *; [discriminate|].
  destruct (lift (SourceModel.get_word s)) as [[[s1 w]|]| |]; cbn [bindx] in *; try discriminate.
  destruct (w =? M_SOT); [apply ret_pair in H as [<- <-]; split; [exact Hb|reflexivity]|].
  assert (HC : match main_parser w (option_map Csiz (h_siz h0)) with
               | None => main_parser w (option_map Csiz (h_siz (Hdr B (now h0) (ppm h0)))) = None
               | Some f => exists f2, main_parser w (option_map Csiz (h_siz (Hdr B (now h0) (ppm h0)))) = Some f2 /\ forall L b g x, f L b g = ret x -> f2 L b g = ret x
               end).
  { unfold h_siz, h_ptr. cbn [before now]. rewrite Hb. cbn [app]. rewrite last_of_app. destruct (last_of is_siz (now h0)) as [x|]; [|apply parser_reuse].
    destruct (main_parser w (option_map Csiz (Some x))) as [f|] eqn:E; [|reflexivity]. exists f. split; [reflexivity|auto]. }
  destruct (main_parser w (option_map Csiz (h_siz h0))) as [f|].
  - destruct HC as (f2 & -> & Hf). destruct (open_segment s1) as [[[s2 [[L b] g]]|]| |]; cbn [bindx] in *; try discriminate.
    destruct (f L b g) as [[x|]| |] eqn:E; cbn [bindx] in *; try discriminate. rewrite (Hf _ _ _ _ E). cbn [bindx ret before now ppm].
    apply (IH s2 (Hdr (before h0) (now h0 ++ [x]) (ppm h0)) s' h0' Hb H).
  - rewrite HC. destruct (skip_unknown s1 w) as [[[s2 k]|]| |]; cbn [bindx] in *; try discriminate. apply (IH s2 h0 s' h0' Hb H).
Qed.

Lemma parse_reuse s h s' h0 : parse_main s hdr0 = ret (s', h0) -> before h0 = [] /\ parse_main s h = ret (s', Hdr (before h ++ now h) (now h0) (ppm h0)).
Proof.
  unfold parse_main, read_header. destruct (lift (SourceModel.get_word s)) as [[[s1 w]|]| |]; cbn [bindx]; try discriminate. cbn [before now hdr0 app].
  destruct (read_segments (S (length (mem s1))) s1 (Hdr [] [] None)) as [[[s2 h2]|]| |] eqn:E; cbn [bindx]; try discriminate.
  destruct (segments_reuse (before h ++ now h) _ s1 (Hdr [] [] None) s2 h2 eq_refl E) as [Hb E2]. cbn [now ppm] in E2. rewrite E2. cbn [bindx ret now ppm before].
  destruct (all_of is_ppm (now h2)).
  - cbn [bindx ret]. destruct (lift (rewind_2bytes s2)) as [[[s3 ?]|]| |]; cbn [bindx]; try discriminate. intros H. apply ret_pair in H as [<- <-]. split; [exact Hb|reflexivity].
  - cbn [bindx bind]. destruct (ppm_bytes (mem s2) _) as [b| |]; cbn [bind]; try discriminate. destruct (ppm_pieces (S (length b)) b) as [[pcs|]| |]; cbn [bindx ret]; try discriminate.
    destruct (lift (rewind_2bytes s2)) as [[[s3 ?]|]| |]; cbn [bindx ret]; try discriminate. intros H. apply ret_pair in H as [<- <-]. split; [exact Hb|reflexivity].
Qed.

(** Whatever was parsed before, a codestream that a new decoder accepts is
    accepted with the same position and the same component, quantisation,
    region, length and comment segments and packed headers; sizes and
    defaults that the codestream states are the stated ones.  What the
    codestream does not state is left from before. *)
Theorem C65_reuse_partial : forall s h s' h0, parse_main s hdr0 = ret (s', h0) ->
  exists h', parse_main s h = ret (s', h')
    /\ h_coc h' = h_coc h0 /\ h_qcc h' = h_qcc h0 /\ h_rgn h' = h_rgn h0 /\ h_tlm h' = h_tlm h0 /\ h_com h' = h_com h0 /\ ppm h' = ppm h0
    /\ (forall x, h_siz h0 = Some x -> h_siz h' = Some x) /\ (forall x, h_cod h0 = Some x -> h_cod h' = Some x)
    /\ (forall x, h_qcd h0 = Some x -> h_qcd h' = Some x) /\ (forall x, h_cap h0 = Some x -> h_cap h' = Some x)
    /\ (forall x, h_poc h0 = Some x -> h_poc h' = Some x)
    /\ (h_poc h0 = None -> h_poc h' = h_poc h) /\ (h_cap h0 = None -> h_cap h' = h_cap h).
Proof.
  intros s h s' h0 H. destruct (parse_reuse s h s' h0 H) as [Hb E]. eexists. split; [exact E|].
  unfold h_coc, h_qcc, h_rgn, h_tlm, h_com, h_siz, h_cod, h_qcd, h_cap, h_poc, h_ptr. cbn [now ppm before]. rewrite Hb. cbn [app]. repeat (split; [reflexivity|]).
  split; [intros x Hx; rewrite last_of_app, Hx; reflexivity|]. split; [intros x Hx; rewrite last_of_app, Hx; reflexivity|]. split; [intros x Hx; rewrite last_of_app, Hx; reflexivity|].
  split; [intros x Hx; rewrite last_of_app, Hx; reflexivity|]. split; [intros x Hx; rewrite last_of_app, Hx; reflexivity|].
  split; intros Hx; rewrite last_of_app, Hx; reflexivity.
Qed.
Print Assumptions C65_reuse_partial.

(** A first codestream with a progression order change, a second one without. *)
Definition ex_poc_input : list Z :=
  w16 M_SOC ++ write_siz (many_tiles 8) ++ write_cod 12 (Cod 0 256 [0; 4; 4; 64; 1]) ++ write_qcd true 4 (Qcd 32 [64])
  ++ [255; 95; 0; 9; 0; 0; 0; 1; 1; 1; 2] ++ [255; 144; 0; 10].
Definition ex_plain_input : list Z :=
  w16 M_SOC ++ write_siz (many_tiles 8) ++ write_cod 12 (Cod 0 256 [0; 4; 4; 64; 1]) ++ write_qcd true 4 (Qcd 32 [64]) ++ [255; 144; 0; 10].
Definition src_of (l : list Z) : src := Src (Some (l ++ repeat 0 16)) 0 (zlen l).
(** A decoder used again keeps the first codestream's progression order changes
    for the second, where a new decoder has none. *)
Theorem C65_stale_refuted : exists s1 h1 s2 h2 h2' p,
  parse_main (src_of ex_poc_input) hdr0 = ret (s1, h1) /\ parse_main (src_of ex_plain_input) hdr0 = ret (s2, h2)
  /\ parse_main (src_of ex_plain_input) h1 = ret (s2, h2') /\ h_poc h2 = None /\ h_poc h2' = Some p.
Proof. do 6 eexists. split; [vm_compute; reflexivity|]. split; [vm_compute; reflexivity|]. split; [vm_compute; reflexivity|]. split; reflexivity. Qed.
Print Assumptions C65_stale_refuted.

(** A component segment before the sizes: refused by a new decoder, accepted
    by one that remembers the previous codestream's component count. *)
Definition ex_early_input : list Z :=
  w16 M_SOC ++ [255; 94; 0; 5; 0; 0; 8] ++ write_siz (many_tiles 8) ++ write_cod 12 (Cod 0 256 [0; 4; 4; 64; 1]) ++ write_qcd true 4 (Qcd 32 [64]) ++ [255; 144; 0; 10].
Theorem C65_accepts_refuted : exists s1 h1 s2 h2,
  parse_main (src_of ex_plain_input) hdr0 = ret (s1, h1) /\ parse_main (src_of ex_early_input) hdr0 = throw
  /\ parse_main (src_of ex_early_input) h1 = ret (s2, h2).
Proof. do 4 eexists. split; [vm_compute; reflexivity|]. split; vm_compute; reflexivity. Qed.
Print Assumptions C65_accepts_refuted.

(** ** C66 *)

(** The colour transform takes the first three components sample by sample,
    with the first one's width, height and stride (coding_units.cpp:6887-6913),
    so it may only be signalled, and done, when they have the same sampling. *)
Theorem C66_color_sizes_partial : forall x0 P,
  color_on x0 P = 1 -> Csiz x0 = 3 -> (sampling x0 0 = sampling x0 1 \/ (fst (sampling x0 0) <> fst (sampling x0 1) /\ snd (sampling x0 0) <> snd (sampling x0 1))) ->
  (sampling x0 1 = sampling x0 2 \/ (fst (sampling x0 1) <> fst (sampling x0 2) /\ snd (sampling x0 1) <> snd (sampling x0 2))) ->
  same_sampling x0.
Proof.
  intros x0 P. unfold color_on, same_sampling, sampling, same3. cbv zeta. destruct (znth (0, 0, 0) (Comps x0) 0) as [[a0 b0] c0], (znth (0, 0, 0) (Comps x0) 1) as [[a1 b1] c1], (znth (0, 0, 0) (Comps x0) 2) as [[a2 b2] c2]. cbn [fst snd].
  intros H HC H1 H2. rewrite HC in H. cbn [Z.eqb Pos.eqb Z.ltb Z.compare Pos.compare Pos.compare_cont andb] in H.
  destruct (p_color P =? 1) eqn:Ep; cbn [andb] in H; [|lia].
  destruct H1 as [H1|[H1 H1']]; [injection H1 as -> ->|].
  - destruct H2 as [H2|[H2 H2']]; [injection H2 as -> ->; split; reflexivity|]. replace (b1 =? b2) with false in H by lia. replace (c1 =? c2) with false in H by lia. rewrite !andb_false_r in H. discriminate H.
  - replace (b0 =? b1) with false in H by lia. replace (c0 =? c1) with false in H by lia. cbn [andb negb] in H. discriminate H.
Qed.
Print Assumptions C66_color_sizes_partial.
Example C66_example : color_on ex_siz ex_cod = 1 /\ Csiz ex_siz = 3 /\ sampling ex_siz 0 = sampling ex_siz 1 /\ sampling ex_siz 1 = sampling ex_siz 2
  /\ color_on (Siz 0 640 480 0 0 640 480 0 0 3 [(7, 1, 1); (7, 2, 2); (7, 2, 2)]) ex_cod = 0.
Proof. repeat split. Qed.

(** 4:2:2: the second and third component are half as wide, and the colour
    transform stays on; also for 4:2:0 with a fourth component. *)
Theorem C66_color_sizes_refuted :
  (exists x0 bytes s h c, sizes_ok x0 /\ Csiz x0 = 3 /\ sampling x0 0 = (1, 1) /\ sampling x0 1 = (2, 1) /\ sampling x0 2 = (2, 1)
    /\ encoder_header x0 ex_cod (QcdP 1 false) false ex_steps [] [] = ret bytes
    /\ parse_main (Src (Some (bytes ++ [255; 144] ++ repeat 0 10)) 0 (zlen bytes + 12)) hdr0 = ret (s, h) /\ h_cod h = Some c /\ use_color_trafo c = 1)
  /\ (exists x0, sizes_ok x0 /\ Csiz x0 = 4 /\ sampling x0 0 = (1, 1) /\ sampling x0 1 = (2, 2) /\ color_on x0 ex_cod = 1).
Proof.
  split.
  - exists (Siz 0 640 480 0 0 640 480 0 0 3 [(7, 1, 1); (7, 2, 1); (7, 2, 1)]). do 4 eexists.
    split; [constructor; [unfold in_word, in_dword; cbn; lia|cbn; split; [lia|reflexivity]|repeat constructor; unfold in_byte; cbn; lia]|].
    do 4 (split; [reflexivity|]). split; [vm_compute; reflexivity|]. split; [vm_compute; reflexivity|]. split; [reflexivity|]. reflexivity.
  - exists (Siz 0 640 480 0 0 640 480 0 0 4 [(7, 1, 1); (7, 2, 2); (7, 2, 2); (7, 1, 1)]).
    split; [constructor; [unfold in_word, in_dword; cbn; lia|cbn; split; [lia|reflexivity]|repeat constructor; unfold in_byte; cbn; lia]|]. repeat split.
Qed.
Print Assumptions C66_color_sizes_refuted.
