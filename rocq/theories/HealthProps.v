(* Property theorems about `abq health` (C85). *)
From Verif Require Import Base JsonModel JsonlModel AuthModel AuthSpec AuthProofs WireModel WireSpec WireProps CodecModel CodecProofs
  HealthModel HealthSpec HealthProofs.
From Coq Require Import String NArith.
Local Open Scope list_scope.

Section Props.
Context (gz_encode : bytes -> bytes) (gz_decode : bytes -> option bytes).
Notation health := (health gz_encode gz_decode).

Lemma health_nonempty token ok qs ws ns entities at_ links :
  map (pair Queue) qs ++ map (pair WorkScheduler) ws ++ map (pair Negotiator) ns <> [] ->
  health token ok qs ws ns entities at_ links =
    if ok then check_all gz_encode gz_decode token entities at_ links 0 (asked qs ws ns) true [] else IoError.
Proof. unfold HealthModel.health, asked. now destruct (_ ++ _). Qed.

(* When the command ends with an exit code it has printed one line for each service it was given,
   first the queues, then the work schedulers, then the negotiators; the code is 0 if all the lines
   say healthy and 1 otherwise. *)
Theorem C85_exit_code token ok qs ws ns entities at_ links code lines :
  health token ok qs ws ns entities at_ links = Exit code lines ->
  map about lines = map (pair Queue) qs ++ map (pair WorkScheduler) ws ++ map (pair Negotiator) ns /\
  lines <> [] /\ (code = 0 \/ code = 1) /\ (code = 0 <-> Forall is_healthy lines).
Proof.
  intros H. unfold HealthModel.health in H. destruct (asked qs ws ns) as [|x l] eqn:E; [discriminate|]. destruct ok; [|discriminate].
  pose proof (check_all_lines gz_encode gz_decode token entities at_ links (x :: l) 0 true []) as X. rewrite H in X.
  destruct X as (new & -> & M & _ & C1 & C2). cbn [List.app] in *. rewrite <- E in M. split; [exact M|].
  split; [intros ->; rewrite E in M; discriminate|]. split; [exact C1|]. rewrite C2. intuition.
Qed.

(* Without a service to check it is an error of usage, and only then. *)
Theorem C85_nothing_to_check token ok qs ws ns entities at_ links :
  health token ok qs ws ns entities at_ links = UsageError <-> qs = [] /\ ws = [] /\ ns = [].
Proof.
  split.
  - unfold HealthModel.health, asked. destruct qs as [|q qs]; cbn [map List.app]; [destruct ws as [|w ws]; cbn [map List.app]; [destruct ns as [|n ns]; cbn [map]|]|];
      auto; (destruct ok; [|discriminate]); intros H.
    all: match type of H with check_all _ _ _ _ _ _ ?i ?l ?b ?x = _ =>
      pose proof (check_all_lines gz_encode gz_decode token entities at_ links l i b x) as X end; rewrite H in X; contradiction.
  - intros (-> & -> & ->). reflexivity.
Qed.

(* Whatever the network does: a service is called healthy only if there is something at its address
   that says so; a server of a queue says so only to those whom it admits, and the version printed
   is its own. *)
Theorem C85_healthy_is_true token ok qs ws ns entities at_ links lines s a v :
  gz_ok gz_encode gz_decode -> client_ok token -> (forall i, entity_ok (entities i)) -> (forall a, place_ok (at_ a)) ->
  (exists code, health token ok qs ws ns entities at_ links = Exit code lines) \/ health token ok qs ws ns entities at_ links = Never lines ->
  In (HealthyLine s a v) lines ->
  match at_ a with
  | Nobody => False
  | Abq _ auth version => admits auth token /\ v = version
  | Stranger reply => exists e, entity_ok e /\ says_healthy gz_decode (fst (reply (request gz_encode token s e))) v
  end.
Proof.
  intros GZ CO EO PO H I.
  assert (L : exists l, lines_of gz_encode gz_decode token entities at_ links 0 l lines).
  { unfold HealthModel.health in H. destruct (asked qs ws ns) as [|x l]; [destruct H as [(c & H)|H]; discriminate|].
    destruct ok; [|destruct H as [(c & H)|H]; discriminate].
    pose proof (check_all_lines gz_encode gz_decode token entities at_ links (x :: l) 0 true []) as X.
    destruct H as [(c & H)|H]; rewrite H in X.
    - destruct X as (new & -> & _ & L & _). eauto.
    - destruct X as (new & -> & L). eauto. }
  destruct L as (l & L). destruct (lines_of_in _ _ _ _ _ _ _ _ _ _ L I) as (k & x & N & A & G). cbn [about] in A.
  specialize (PO a). specialize (EO (0 + k)). destruct (at_ a) as [|s' auth version|reply] eqn:AT.
  - unfold get_health in G. destruct (l_connects _), (l_sends _); discriminate.
  - destruct PO as [SO VO]. destruct (answered_abq gz_encode gz_decode GZ _ _ _ _ _ _ _ _ SO VO CO EO G) as [AD E]. split; [exact AD|congruence].
  - exists (entities (0 + k)). split; [exact EO|]. exact (answered_stranger _ _ _ _ _ _ _ _ G).
Qed.

(* Hence one address where nobody is, or a queue that does not admit the caller, makes the code 1. *)
Theorem C85_one_is_down token ok qs ws ns entities at_ links code lines a :
  gz_ok gz_encode gz_decode -> client_ok token -> (forall i, entity_ok (entities i)) -> (forall a, place_ok (at_ a)) ->
  health token ok qs ws ns entities at_ links = Exit code lines ->
  In a qs \/ In a ws \/ In a ns ->
  (at_ a = Nobody \/ exists s auth version, at_ a = Abq s auth version /\ ~ admits auth token) ->
  code = 1.
Proof.
  intros GZ CO EO PO H I D. destruct (C85_exit_code _ _ _ _ _ _ _ _ _ _ H) as (M & _ & [C|C] & CF); [|exact C].
  exfalso. apply CF in C.
  assert (X : exists s, In (s, a) (map about lines)).
  { rewrite M. destruct I as [I|[I|I]]; [exists Queue|exists WorkScheduler|exists Negotiator]; rewrite !in_app_iff, !in_map_iff; eauto 6. }
  destruct X as (s & X). apply in_map_iff in X as (ln & E & IL). rewrite Forall_forall in C. specialize (C ln IL).
  destruct ln as [s' a' v|]; [|contradiction]. cbn in E. injection E as -> ->.
  pose proof (C85_healthy_is_true _ _ _ _ _ _ _ _ _ _ _ _ GZ CO EO PO (or_introl (ex_intro _ _ H)) IL) as T.
  destruct D as [D|(s1 & au & ve & D & NA)]; rewrite D in T; [exact T|]. tauto.
Qed.

(* If all addresses have servers of queues that admit the caller, and no conversation breaks, the
   code is 0 and each line tells the version of its server. *)
Theorem C85_all_up token qs ws ns entities at_ links version :
  gz_ok gz_encode gz_decode -> client_ok token -> (forall i, entity_ok (entities i)) ->
  qs ++ ws ++ ns <> [] ->
  (forall a, In a (qs ++ ws ++ ns) -> exists s auth, at_ a = Abq s auth (version a) /\ place_ok (at_ a) /\ admits auth token) ->
  (forall i, smooth gz_decode (links i)) ->
  health token true qs ws ns entities at_ links =
    Exit 0 (map (fun a => HealthyLine Queue a (version a)) qs ++ map (fun a => HealthyLine WorkScheduler a (version a)) ws ++
            map (fun a => HealthyLine Negotiator a (version a)) ns).
Proof.
  intros GZ CO EO NE UP SM. rewrite health_nonempty.
  2:{ intros E. apply NE. apply (f_equal (map snd)) in E. rewrite !map_app, !map_map in E. cbn in E. now rewrite !map_id in E. }
  rewrite (check_all_up gz_encode gz_decode token entities at_ links (asked qs ws ns) version 0 []).
  - cbn [List.app]. unfold asked. rewrite !map_app, !map_map. reflexivity.
  - intros k s a N. apply nth_error_In in N.
    assert (IA : In a (qs ++ ws ++ ns)).
    { apply (in_map snd) in N. unfold asked in N. rewrite !map_app, !map_map in N. cbn in N. now rewrite !map_id in N. }
    destruct (UP a IA) as (s' & auth & AT & PO & AD). rewrite AT in PO |- *. destruct PO as [SO VO].
    apply answered_smooth; auto.
    assert (E : c_ask s' = c_ask s) by (destruct s, s'; reflexivity). rewrite E.
    apply (written _ (lawful_ask s)). split; [now apply entity_codec_ok; apply EO|exact I].
Qed.

(* It ends with an exit code if every conversation does: whoever answered closes the connection and
   the caller gets to the end of what was sent. *)
Theorem C85_ends_partial token qs ws ns entities at_ links :
  qs ++ ws ++ ns <> [] ->
  (forall i s a, concludes gz_encode gz_decode (at_ a) (links i) (request gz_encode token s (entities i))) ->
  exists code lines, health token true qs ws ns entities at_ links = Exit code lines.
Proof.
  intros NE C. rewrite health_nonempty.
  2:{ intros E. apply NE. apply (f_equal (map snd)) in E. rewrite !map_app, !map_map in E. cbn in E. now rewrite !map_id in E. }
  apply check_all_ends. intros k s a _. apply get_health_ends. apply C.
Qed.

(* Otherwise it need not: something that takes the connection and says nothing keeps the command
   waiting, however long it reads; there is no time limit. *)
Theorem C85_silent_service_refuted token q entities at_ links :
  at_ q = Stranger (fun _ => ([], false)) ->
  l_connects (links 0) = true -> l_sends (links 0) = true -> (forall t, In t (l_turns (links 0)) -> t <> Broken) ->
  health token true [q] [] [] entities at_ links = Never [].
Proof.
  intros AT H1 H2 H3. unfold HealthModel.health, asked. cbn [map List.app check_all].
  assert (G : get_health gz_encode gz_decode token (entities 0) Queue (at_ q) (links 0) = Hangs); [|now rewrite G].
  unfold get_health. rewrite H1, H2, AT. cbn [negb conversation]. unfold read_help.
  assert (W : forall ts, (forall t, In t ts -> t <> Broken) -> read_exact_help false false 4 [] [] ts = Waiting).
  { clear. induction ts as [|t ts IH]; intros N; cbn [read_exact_help]; [reflexivity|].
    assert (IH' := IH (fun t' I => N t' (or_intror I))). destruct t; auto. now destruct (N Broken (or_introl eq_refl)). }
  now rewrite W.
Qed.

(* Nor does it see that what answers is not the service asked for: a queue server that admits the
   caller is a healthy negotiator. *)
Theorem C85_other_service_refuted token a entities at_ links auth version :
  gz_ok gz_encode gz_decode -> client_ok token -> (forall i, entity_ok (entities i)) -> (forall i, smooth gz_decode (links i)) ->
  at_ a = Abq Queue auth version -> place_ok (at_ a) -> admits auth token ->
  health token true [] [] [a] entities at_ links = Exit 0 [HealthyLine Negotiator a version].
Proof.
  intros GZ CO EO SM AT PO AD.
  rewrite (C85_all_up token [] [] [a] entities at_ links (fun _ => version) GZ CO EO); [reflexivity|discriminate| |exact SM].
  intros a' [<-|[]]. exists Queue, auth. auto.
Qed.
End Props.

(* The help of the command says that the token is usually the admin token of the queue; no admin
   token, as `abq start` is given it, is a token for the command. *)
Theorem C85_admin_token_refuted t : AuthSpec.token t -> parse_admin (show_admin t) = Some t /\ parse_user (show_admin t) = None.
Proof.
  intros T. split.
  - apply admin_parse. exists []. rewrite app_nil_r. auto.
  - destruct (parse_user (show_admin t)) as [u|] eqn:E; [|reflexivity]. apply user_parse in E as (rest & E & _). discriminate E.
Qed.

(* A compressor that is one, conversations in which nothing breaks, and two servers: the hypotheses
   are met and the command ends in all of its ways. *)
Definition toy_encode (b : bytes) : bytes := 31 :: b.
Definition toy_decode (b : bytes) : option bytes := match b with 31 :: b' => Some b' | _ => None end.
Definition good : link :=
  {| l_connects := true; l_sends := true; l_events := Call :: repeat (Bytes 100) 300; l_cut := None; l_turns := repeat (Got 7) 700 |}.
Definition me : list N * CodecModel.tag := (repeat 7%N 16, LocalClient).
Definition tok : bytes := repeat 97 30.
Definition adm : bytes := repeat 65 30.
Definition town (a : address) : place :=
  match snd a with
  | 1 => Abq Queue (STokens tok adm) (text "1.3.2")
  | 2 => Abq Negotiator (STokens tok adm) (text "1.3.3")
  | 3 => Stranger (fun _ => ([], true))
  | 4 => Stranger (fun _ => ([], false))
  | 5 => Stranger (fun _ => (frame toy_encode true (c_enc c_health (false, text "9")), true))
  | 6 => Stranger (fun _ => (frame toy_encode true (c_enc c_health (true, text "9")), true))
  | _ => Nobody
  end.

Lemma tok_token : AuthSpec.token tok.
Proof. split; [reflexivity|]. apply Forall_forall. intros x H. apply repeat_spec in H. subst. unfold is_alnum. lia. Qed.
Lemma adm_token : AuthSpec.token adm.
Proof. split; [reflexivity|]. apply Forall_forall. intros x H. apply repeat_spec in H. subst. unfold is_alnum. lia. Qed.

Example C85_hypotheses : gz_ok toy_encode toy_decode /\ client_ok (CToken tok) /\ entity_ok me /\ (forall a, place_ok (town a)) /\
  smooth toy_decode good /\ admits (STokens tok adm) (CToken tok) /\ ~ admits (STokens tok adm) (CToken (repeat 98 30)) /\
  ~ admits (STokens tok adm) CNoAuth.
Proof.
  split. { split; [reflexivity|discriminate]. }
  split; [exact tok_token|]. split.
  { repeat split. apply Forall_forall. intros x H. apply repeat_spec in H. subst. lia. }
  split.
  { intros [h p]. unfold town, place_ok. cbn [snd].
    destruct p as [|[|[|[|[|[|[|]]]]]]]; auto; (split; [split; [exact tok_token|exact adm_token]|cbn; lia]). }
  split.
  { unfold smooth, good. cbn [l_connects l_sends l_events l_cut l_turns]. do 3 (split; [reflexivity|]). split.
    - intros e [<-|H]; [repeat split; discriminate|]. apply repeat_spec in H. subst. repeat split; discriminate.
    - split; [eexists; split; [reflexivity|apply Nat.leb_le; vm_compute; reflexivity]|]. split.
      + intros t H. apply repeat_spec in H. subst. split; discriminate.
      + apply Nat.leb_le; vm_compute; reflexivity. }
  split; [left; reflexivity|]. split; [intros [H|H]; discriminate|intros []].
Qed.

Example C85_two_up :
  health toy_encode toy_decode (CToken tok) true [(0, 1)] [] [(0, 2)] (fun _ => me) town (fun _ => good) =
    Exit 0 [HealthyLine Queue (0, 1) (text "1.3.2"); HealthyLine Negotiator (0, 2) (text "1.3.3")].
Proof. vm_compute. reflexivity. Qed.

Example C85_some_down :
  health toy_encode toy_decode (CToken tok) true [(0, 3); (0, 1)] [(0, 5); (0, 6)] [(0, 9)] (fun _ => me) town (fun _ => good) =
    Exit 1 [UnhealthyLine Queue (0, 3); HealthyLine Queue (0, 1) (text "1.3.2"); UnhealthyLine WorkScheduler (0, 5);
            HealthyLine WorkScheduler (0, 6) (text "9"); UnhealthyLine Negotiator (0, 9)] /\
  health toy_encode toy_decode (CToken (repeat 98 30)) true [(0, 1)] [] [] (fun _ => me) town (fun _ => good) = Exit 1 [UnhealthyLine Queue (0, 1)].
Proof. split; vm_compute; reflexivity. Qed.

Example C85_waits :
  health toy_encode toy_decode (CToken tok) true [(0, 1); (0, 4); (0, 2)] [] [] (fun _ => me) town (fun _ => good) =
    Never [HealthyLine Queue (0, 1) (text "1.3.2")].
Proof. vm_compute. reflexivity. Qed.

Example C85_concludes :
  match conversation toy_encode toy_decode (town (0, 1)) good (request toy_encode (CToken tok) Queue me) with
  | Some (reply, closed) => closed && (List.length reply <? answers (l_turns good))
  | None => false
  end = true /\
  concludes toy_encode toy_decode (town (0, 3)) good (request toy_encode (CToken tok) Queue me).
Proof. split; [vm_compute; reflexivity|]. split; [reflexivity|]. apply Nat.ltb_lt. vm_compute. reflexivity. Qed.

Print Assumptions C85_exit_code.
Print Assumptions C85_nothing_to_check.
Print Assumptions C85_healthy_is_true.
Print Assumptions C85_one_is_down.
Print Assumptions C85_all_up.
Print Assumptions C85_ends_partial.
Print Assumptions C85_silent_service_refuted.
Print Assumptions C85_other_service_refuted.
Print Assumptions C85_admin_token_refuted.
