(** The whole request of a client that holds a cache. *)
From Coq Require Import String List Permutation.
From Verif Require Import Base BaseLemmas Text TextProofs ViewModel CacheModel CacheSpec CacheProofs QueryModel QueryProps.

Definition plain (s : list Z) : Prop := Forall (fun c => c <> 38 /\ c <> 32) s.
Lemma plain_dec n : 0 <= n -> plain (dec n).
Proof. intros H. destruct (dec_spec n H) as (F & _). eapply Forall_impl; [|exact F]. cbv beta. unfold is_digit. intros c Hc. lia. Qed.
Lemma runs_from_nonneg l : forall a b, 0 <= a -> 0 <= b -> Forall (fun i => 0 <= i) l -> Forall (fun r => 0 <= fst r /\ 0 <= snd r) (runs_from a b l).
Proof.
  induction l as [|x l IH]; intros a b Ha Hb F; cbn [runs_from]; [constructor; [split; assumption|constructor]|].
  inversion F; subst. destruct (x =? _); [apply IH; assumption|]. constructor; [split; assumption|]. apply IH; assumption.
Qed.
Lemma runs_nonneg l : Forall (fun i => 0 <= i) l -> Forall (fun r => 0 <= fst r /\ 0 <= snd r) (runs l).
Proof. intros F. unfold runs. destruct l; [constructor|]. inversion F; subst. now apply runs_from_nonneg. Qed.
Lemma class_prefix_plain c p : class_prefix c = Some p -> plain p.
Proof.
  unfold class_prefix, plain. repeat (destruct (_ =? _); [intros [= <-]; repeat (constructor; [split; discriminate|]); constructor|]). discriminate.
Qed.
Lemma group_tokens_plain g : group_ok g -> Forall plain (group_tokens g).
Proof.
  intros (_ & G2 & G3). unfold group_tokens. destruct (class_prefix (g_cls g)) as [p|] eqn:E; [|constructor].
  apply class_prefix_plain in E.
  assert (Forall (fun i => 0 <= i) (sort (fun x => x) (g_complete g))) as F1.
  { eapply Permutation_Forall; [symmetry; apply sort_perm|]. eapply Forall_impl; [|exact G2]. cbv beta. intros; lia. }
  assert (Forall (fun q => 0 <= fst q /\ 0 <= snd q) (sort fst (g_partial g))) as F2.
  { eapply Permutation_Forall; [symmetry; apply sort_perm|]. eapply Forall_impl; [|exact G3]. cbv beta. intros; lia. }
  destruct (g_cls g =? 6); apply Forall_app; split.
  - destruct (sort _ (g_complete g)); repeat constructor; assumption.
  - apply Forall_map. eapply Forall_impl; [|exact F2]. cbv beta. intros q [_ Hq]. apply Forall_app. split; [exact E|].
    constructor; [split; discriminate|now apply plain_dec].
  - apply Forall_map. eapply Forall_impl; [|apply runs_nonneg, F1]. cbv beta. intros q [H1 H2]. unfold run_token.
    apply Forall_app. split; [exact E|]. apply Forall_app. split; [now apply plain_dec|].
    destruct (_ =? _); [constructor|constructor; [split; discriminate|now apply plain_dec]].
  - apply Forall_map. eapply Forall_impl; [|exact F2]. cbv beta. intros q [H1 H2]. unfold partial_token.
    apply Forall_app. split; [exact E|]. apply Forall_app. split; [now apply plain_dec|].
    constructor; [split; discriminate|now apply plain_dec].
Qed.
Lemma format_plain l : Forall entry_ok l -> model_text (format l).
Proof.
  intros H. unfold format. assert (Forall plain (concat (map group_tokens (group_all l)))) as F.
  { apply Forall_concat, Forall_map. eapply Forall_impl; [|apply group_all_ok, H]. apply group_tokens_plain. }
  assert (forall ts out, Forall plain ts -> plain out -> plain (fold_left add_token ts out)) as G.
  { induction ts as [|t ts IH]; intros out Ft Fo; cbn [fold_left]; [exact Fo|]. inversion Ft; subst. apply IH; [assumption|].
    unfold add_token. apply Forall_app. split; [|assumption]. destruct (_ =? 0); [constructor|].
    apply Forall_app. split; [exact Fo|]. constructor; [split; discriminate|constructor]. }
  apply G; [exact F|constructor].
Qed.

(** A client asks for a window and states the cache it holds (C11 gives the
    conditions on the cache): the server reads the same window, and the cache
    it reconstructs from the request answers every question as the client's
    does. *)
Theorem C18_request_with_cache : forall w l, api_window w -> zlen (comps w) <= 16384 ->
  NoDup (map fst l) -> Forall entry_ok l -> zlen l <= 4194304 ->
  exists query r m, split_http_get_line (request_line w (Some (format l))) = Some (txt "/jpip", query) /\
    parse_jpip_query query = Ret (POk r) /\ q_win r = w /\ parse (q_model r) = Ret m /\
    forall c i, has m c i = has l c i /\ (has l c i = false -> received_bytes m c i = received_bytes l c i).
Proof.
  intros w l A L N F Hl. destruct (C18_request w (Some (format l)) A L) as (q & E1 & E2).
  { intros m [= <-]. now apply format_plain. }
  destruct (text_round_trip l N F Hl) as (m & P & G).
  exists q, (as_sent w (Some (format l))), m. auto.
Qed.
Print Assumptions C18_request_with_cache.
