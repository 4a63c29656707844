From Verif Require Import Base AuthModel AuthSpec AuthProofs JobQueueModel RunModel RunSpec RunProofs RunProps.

(* ---- C47 ---- *)

(* printing then parsing gives the token back *)
Theorem C47_round_trip : forall t, token t -> parse_user (show_user t) = Some t /\ parse_admin (show_admin t) = Some t.
Proof.
  intros t T. split; [apply user_parse|apply admin_parse]; exists []; rewrite app_nil_r; repeat split; auto; apply T.
Qed.

(* whatever parses is a token *)
Theorem C47_parsed_is_token : forall s t, parse_user s = Some t \/ parse_admin s = Some t -> token t.
Proof.
  intros s t [H|H]; [apply user_parse in H|apply admin_parse in H]; now destruct H as (r & _ & T & _).
Qed.

(* no text is both a user token and an admin token *)
Theorem C47_user_is_not_admin : forall s t, parse_user s = Some t -> parse_admin s = None.
Proof.
  intros s t H. destruct (parse_admin s) as [t'|] eqn:E; [|reflexivity].
  apply user_parse in H as (r & -> & _). apply admin_parse in E as (r' & E & _). cbn in E. discriminate E.
Qed.

(* Refuted: other texts than a printed token parse *)
Theorem C47_other_text_refuted : exists s t, parse_user s = Some t /\ s <> show_user t /\ s <> show_admin t.
Proof.
  exists (show_user (repeat 97 30) ++ show_user [1; 2; 3]), (repeat 97 30).
  split; [vm_compute; reflexivity|split; vm_compute; discriminate].
Qed.

(* Missing from the claim: texts in which the printed token is followed by the prefix again;
   what comes after it is ignored.  What holds: these are the only other texts that parse. *)
Theorem C47_other_text_partial : forall s t,
  (parse_user s = Some t <-> token t /\ (s = show_user t \/ begins_with (show_user t ++ user_prefix) s)) /\
  (parse_admin s = Some t <-> token t /\ (s = show_admin t \/ begins_with (show_admin t ++ admin_prefix) s)).
Proof.
  intros s t. rewrite user_parse, admin_parse. unfold show_user, show_admin, display_human_readable, begins_with.
  split; split.
  - intros (r & -> & T & [->|[r' ->]]); (split; [exact T|]).
    + left. now rewrite app_nil_r.
    + right. exists r'. now rewrite <- !app_assoc.
  - intros (T & [->|[r ->]]).
    + exists []. rewrite app_nil_r. auto.
    + exists (user_prefix ++ r). rewrite <- !app_assoc. eauto 6.
  - intros (r & -> & T & [->|[r' ->]]); (split; [exact T|]).
    + left. now rewrite app_nil_r.
    + right. exists r'. now rewrite <- !app_assoc.
  - intros (T & [->|[r ->]]).
    + exists []. rewrite app_nil_r. auto.
    + exists (admin_prefix ++ r). rewrite <- !app_assoc. eauto 6.
Qed.

Example C47_example : token (repeat 65 30) /\ parse_user (show_user (repeat 65 29)) = None /\
  parse_user (show_admin (repeat 65 30)) = None /\ parse_user (32 :: show_user (repeat 65 30)) = None.
Proof.
  split; [|repeat split; vm_compute; reflexivity]. split; [reflexivity|].
  rewrite Forall_forall. intros x Hx. apply repeat_spec in Hx. subst. unfold is_alnum. lia.
Qed.

(* ---- C48 ---- *)

(* a role is given only against the token configured for it, or by a server without tokens;
   the bytes after the token, all of them, are left to be read *)
Theorem C48_role_needs_token : forall srv sent r rest, handshake srv sent = Some (r, rest) ->
  match srv with
  | SNoAuth => rest = sent
  | STokens u a => sent = (if is_admin r then a else u) ++ rest /\ length (if is_admin r then a else u) = 30
  end.
Proof.
  intros [|u a] sent r rest; cbn [handshake].
  - intros E. now injection E.
  - destruct (Nat.ltb_spec (length sent) TOKEN_LEN) as [L|L]; [discriminate|].
    unfold verify_header_help.
    assert (F : length (firstn TOKEN_LEN sent) = 30) by (rewrite firstn_length; unfold TOKEN_LEN in *; lia).
    assert (K := firstn_skipn TOKEN_LEN sent).
    destruct (bytes_eqb (firstn TOKEN_LEN sent) u) eqn:E.
    + intros H; injection H as <- <-. apply bytes_eqb_spec in E. cbn [is_admin]. rewrite <- E. split; [symmetry; exact K|exact F].
    + destruct (bytes_eqb (firstn TOKEN_LEN sent) a) eqn:E2; [|discriminate].
      intros H; injection H as <- <-. apply bytes_eqb_spec in E2. cbn [is_admin]. rewrite <- E2. split; [symmetry; exact K|exact F].
Qed.

(* admin rights need the admin token *)
Theorem C48_admin_needs_admin_token : forall u a sent r rest,
  handshake (STokens u a) sent = Some (r, rest) -> is_admin r = true -> begins_with a sent.
Proof.
  intros u a sent r rest H A. apply C48_role_needs_token in H as [-> _]. rewrite A. now exists rest.
Qed.

(* a connection that presents neither token gets nothing *)
Theorem C48_others_rejected : forall u a sent,
  ~ begins_with u sent -> ~ begins_with a sent -> handshake (STokens u a) sent = None.
Proof.
  intros u a sent Hu Ha. destruct (handshake (STokens u a) sent) as [[r rest]|] eqn:E; [|reflexivity].
  apply C48_role_needs_token in E as [-> _]. exfalso. destruct (is_admin r); [apply Ha|apply Hu]; now exists rest.
Qed.

(* the clients made together with the server are let in, whatever they send next, and
   their messages are not touched *)
Theorem C48_right_token_accepted : forall u a msgs, token u -> token a ->
  let '(srv, user, admin) := build_strategies u a in
  handshake srv (send_header user ++ msgs) = Some (RClient, msgs) /\
  (exists r, handshake srv (send_header admin ++ msgs) = Some (r, msgs) /\ is_client r = true /\ (u <> a -> is_admin r = true)).
Proof.
  intros u a msgs [Lu _] [La _]. cbn [build_strategies send_header handshake].
  assert (X : forall t, length t = 30 -> (length (t ++ msgs) <? TOKEN_LEN) = false /\ firstn TOKEN_LEN (t ++ msgs) = t /\ skipn TOKEN_LEN (t ++ msgs) = msgs).
  { intros t L. unfold TOKEN_LEN. rewrite <- L. rewrite firstn_app, firstn_all, Nat.sub_diag, skipn_app, skipn_all, Nat.sub_diag.
    cbn [firstn skipn app]. rewrite app_nil_r. repeat split. apply Nat.ltb_ge. rewrite app_length. lia. }
  destruct (X u Lu) as (-> & -> & ->), (X a La) as (-> & -> & ->). unfold verify_header_help. split.
  - now rewrite (proj2 (bytes_eqb_spec u u) eq_refl).
  - destruct (bytes_eqb a u) eqn:E.
    + exists RClient. repeat split. intros N. apply bytes_eqb_spec in E. congruence.
    + rewrite (proj2 (bytes_eqb_spec a a) eq_refl). exists RAdmin. auto.
Qed.

(* an admin whose token is also the user token is only a client *)
Theorem C48_same_token_is_client : forall t msgs, token t -> handshake (STokens t t) (t ++ msgs) = Some (RClient, msgs).
Proof. intros t msgs T. exact (proj1 (C48_right_token_accepted t t msgs T T)). Qed.

(* a server without authentication takes a client's token for the beginning of its messages *)
Theorem C48_token_to_open_server : forall t msgs, handshake SNoAuth (send_header (CToken t) ++ msgs) = Some (RAdmin, t ++ msgs).
Proof. reflexivity. Qed.

Example C48_example : let u := repeat 65 30 in let a := repeat 66 30 in
  handshake (STokens u a) (a ++ [1; 2]) = Some (RAdmin, [1; 2]) /\ handshake (STokens u a) (repeat 66 29) = None /\
  ~ begins_with u (repeat 67 40) /\ ~ begins_with a (repeat 67 40).
Proof. cbv zeta. repeat split; try (vm_compute; reflexivity); intros [r H]; discriminate H. Qed.

(* ---- C49 ---- *)

(* a worker is told that its command differs exactly if the concatenations of the program and
   its arguments differ *)
Theorem C49_command_identity_partial : forall (T M : Type) (H : list nat -> nat) (st : state T M) k p now pg d0 kd d (c0 c : command),
  collision_free H -> reachable st -> nth_error (s_reqs st) k = Some (QFind p FLookup) ->
  In (OAssigned pg (AssignedRun (Fresh true) d0)) (history st (fp_run p)) ->
  s_log (step st (EFindLookup k now)) = s_log st ++ [OAssigned p (AssignedRun kd d)] ->
  fp_hash pg = from_command H (fst c0) (snd c0) -> fp_hash p = from_command H (fst c) (snd c) ->
  (d = true <-> concat (fst c0 :: snd c0) <> concat (fst c :: snd c)).
Proof.
  intros T M H st k p now pg d0 kd d [c0 a0] [c a] CF R N I L E0 E. cbn [fst snd concat] in *.
  rewrite (C11_other_command_is_flagged st k p now pg d0 kd d R N I L), E0, E.
  unfold from_command. rewrite !hashed_concat, negb_true_iff, Nat.eqb_neq. split; intros X Y; apply X; [now rewrite Y|now apply CF].
Qed.

(* Refuted: different commands go unnoticed, whatever the hash function *)
Theorem C49_command_identity_refuted : exists c c' : command, c <> c' /\
  forall H, from_command H (fst c) (snd c) = from_command H (fst c') (snd c').
Proof.
  exists ([1], [[2]; [3; 4]]), ([1], [[2; 3]; [4]]). split; [discriminate|reflexivity].
Qed.

(* collision-free functions exist *)
Fixpoint godel (l : list nat) : nat := match l with [] => 0 | c :: t => 2 ^ c * (2 * godel t + 1) end.

Lemma godel_pair a : forall b n m, 2 ^ a * (2 * n + 1) = 2 ^ b * (2 * m + 1) -> a = b /\ n = m.
Proof.
  induction a as [|a IH]; intros [|b] n m E; rewrite ?Nat.pow_succ_r' in E.
  - rewrite Nat.pow_0_r in E. lia.
  - exfalso. rewrite Nat.pow_0_r, <- Nat.mul_assoc in E. lia.
  - exfalso. rewrite Nat.pow_0_r, <- Nat.mul_assoc in E. lia.
  - rewrite <- !Nat.mul_assoc in E. destruct (IH b n m); lia.
Qed.

Example C49_hash : collision_free godel.
Proof.
  intros a. induction a as [|x a IH]; intros [|y b] E; cbn [godel] in E.
  - reflexivity.
  - exfalso. assert (2 ^ y <> 0) by (apply Nat.pow_nonzero; lia). nia.
  - exfalso. assert (2 ^ x <> 0) by (apply Nat.pow_nonzero; lia). nia.
  - apply godel_pair in E as [-> E]. f_equal. auto.
Qed.

(* a run and two workers with different commands *)
Definition cmd_par e c : find_params :=
  {| fp_run := 0; fp_entity := e; fp_batch := 2; fp_strategy := ByTest; fp_hash := from_command godel (fst c) (snd c) |}.
Example C49_example :
  let p0 := cmd_par {| en_id := 1; en_tag := TRunner 0 0 |} ([1], [[2]]) in
  let p1 := cmd_par {| en_id := 2; en_tag := TRunner 1 0 |} ([1], [[3]]) in
  let st := run (@step nat nat) (@init_state nat nat) [EFind p0; EFindRemote 0 RemoteNotFound 0; EFind p1] in
  In (OAssigned p0 (AssignedRun (Fresh true) false)) (history st 0) /\
  exists k, nth_error (s_reqs st) k = Some (QFind p1 FLookup) /\
  s_log (step st (EFindLookup k 1)) = s_log st ++ [OAssigned p1 (AssignedRun (Fresh false) true)].
Proof.
  vm_compute. split; [auto|]. exists 1. split; reflexivity.
Qed.

Print Assumptions C47_round_trip.
Print Assumptions C47_parsed_is_token.
Print Assumptions C47_user_is_not_admin.
Print Assumptions C47_other_text_refuted.
Print Assumptions C47_other_text_partial.
Print Assumptions C48_role_needs_token.
Print Assumptions C48_admin_needs_admin_token.
Print Assumptions C48_others_rejected.
Print Assumptions C48_right_token_accepted.
Print Assumptions C48_same_token_is_client.
Print Assumptions C48_token_to_open_server.
Print Assumptions C49_command_identity_partial.
Print Assumptions C49_command_identity_refuted.
