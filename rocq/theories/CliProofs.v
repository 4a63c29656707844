From Verif Require Import Base CliModel CliSpec.

Section CliProofs.
Context {Addr Token Access Bytes Id Text : Type}.
Notation options := (options Addr Token Access Bytes Id Text).
Notation environment := (environment Id).
Notation api_config := (api_config Addr Token Bytes Text).
Notation started := (started Addr Token Bytes Id Text).
Implicit Types (e : environment) (o : options) (stored : option Access) (api : Access -> Id -> option api_config) (s : started).

Lemma inferred_some e r : inferred_run_id e = Some r <-> from_ci e r.
Proof.
  unfold inferred_run_id, from_ci.
  destruct e as [a ci b c g m]; cbn.
  destruct a as [a|]; [split; [discriminate|intros (H & _); discriminate]|].
  destruct ci; cbn; [|split; [discriminate|intros (_ & H & _); discriminate]].
  split.
  - intro H. split; [reflexivity|split; [reflexivity|]].
    destruct b as [b|]; cbn in H.
    { injection H as ->. exists [], [c; g; m]. split; [reflexivity|constructor]. }
    destruct c as [c|]; cbn in H.
    { injection H as ->. exists [None], [g; m]. split; [reflexivity|repeat constructor]. }
    destruct g as [g|]; cbn in H.
    { injection H as ->. exists [None; None], [m]. split; [reflexivity|repeat constructor]. }
    rewrite H. exists [None; None; None], []. split; [reflexivity|repeat constructor].
  - intros (_ & _ & before & after & E & F).
    destruct before as [|x1 before]; cbn in E; injection E as -> E; [reflexivity|].
    inversion_clear F as [|? ? H1 F1]; subst.
    destruct before as [|x2 before]; cbn in E; injection E as -> E; [reflexivity|].
    inversion_clear F1 as [|? ? H1 F2]; subst.
    destruct before as [|x3 before]; cbn in E; injection E as -> E; [reflexivity|].
    inversion_clear F2 as [|? ? H1 F3]; subst.
    destruct before as [|x4 before]; cbn in E; injection E as -> E; [reflexivity|].
    destruct before; discriminate.
Qed.

Lemma external_some e o r : or_else (o_run_id o) (inferred_run_id e) = Some r <-> names_the_run e o r.
Proof.
  unfold names_the_run. destruct (o_run_id o) as [x|]; cbn.
  - split; [intro H; left; exact H|intros [H|(H & _)]; [exact H|discriminate]].
  - rewrite inferred_some. split; [intro H; right; auto|intros [H|(_ & H)]; [discriminate|exact H]].
Qed.

Lemma external_none e o : or_else (o_run_id o) (inferred_run_id e) = None <-> names_no_run e o.
Proof.
  unfold names_no_run. split.
  - intros H r N. apply external_some in N. congruence.
  - intro H. destruct (or_else (o_run_id o) (inferred_run_id e)) as [r|] eqn:E; [|reflexivity].
    apply external_some in E. destruct (H r E).
Qed.

Lemma access_some stored o t : or_else (o_access_token o) stored = Some t <-> has_access stored o t.
Proof.
  unfold has_access. destruct (o_access_token o) as [x|]; cbn; intuition congruence.
Qed.

Lemma access_none stored o : or_else (o_access_token o) stored = None <-> no_access stored o.
Proof.
  unfold no_access. destruct (o_access_token o) as [x|]; cbn; intuition congruence.
Qed.

(* All that is known of a command that started: the case it is in. *)
Inductive how e stored api unique o : list (Access * Id) -> started -> Prop :=
| HHosted t r q tok c k cmd args :
    o_local o = false -> has_access stored o t -> api t r = Some (Success q tok c k) ->
    (names_the_run e o r \/ (names_no_run e o /\ r = unique /\ k = Organization)) ->
    o_args o = cmd :: args ->
    how e stored api unique o [(t, r)]
      {| s_run_id := r; s_queue := TheQueueAt q; s_token := Some tok; s_cert := c;
         s_mode := match k with Personal => Readonly | Organization => WriteNormal end;
         s_max_run_number := ((1 + o_retries o) mod 2 ^ 32)%N; s_telemetry := true; s_command := (cmd, args) |}
| HGiven calls r a cmd args :
    o_queue_addr o = Some a -> o_args o = cmd :: args ->
    (names_the_run e o r \/ (names_no_run e o /\ r = unique)) ->
    ((calls = [] /\ (o_local o = true \/ no_access stored o)) \/
     (exists t x, calls = [(t, r)] /\ has_access stored o t /\ api t r = Some x /\ kind_of x = Personal /\
                  o_local o = false /\ names_no_run e o)) ->
    how e stored api unique o calls
      {| s_run_id := r; s_queue := TheQueueAt a; s_token := o_token o; s_cert := o_tls_cert o;
         s_mode := WriteNormal; s_max_run_number := ((1 + o_retries o) mod 2 ^ 32)%N; s_telemetry := true;
         s_command := (cmd, args) |}
| HOwn calls r tls cmd args :
    o_queue_addr o = None -> o_args o = cmd :: args ->
    (o_local o = true \/ names_no_run e o) ->
    (names_the_run e o r \/ (names_no_run e o /\ r = unique)) ->
    (tls = match o_tls_cert o, o_tls_key o with Some c, Some k => Some (c, k) | _, _ => None end) ->
    given (o_tls_cert o) = given (o_tls_key o) ->
    ((calls = [] /\ (o_local o = true \/ no_access stored o)) \/
     (exists t x, calls = [(t, r)] /\ has_access stored o t /\ api t r = Some x /\ kind_of x = Personal /\
                  o_local o = false)) ->
    how e stored api unique o calls
      {| s_run_id := r; s_queue := OwnQueue (o_token o) tls; s_token := o_token o; s_cert := o_tls_cert o;
         s_mode := WriteNormal; s_max_run_number := ((1 + o_retries o) mod 2 ^ 32)%N; s_telemetry := false;
         s_command := (cmd, args) |}.

Definition run_for unique (x : option Id) : Id := match x with Some r => r | None => unique end.

Lemma run_known e o unique :
  names_the_run e o (run_for unique (or_else (o_run_id o) (inferred_run_id e))) \/
  (names_no_run e o /\ run_for unique (or_else (o_run_id o) (inferred_run_id e)) = unique).
Proof.
  destruct (or_else (o_run_id o) (inferred_run_id e)) as [r|] eqn:E; cbn.
  - left. apply external_some, E.
  - right. split; [apply external_none, E|reflexivity].
Qed.

Lemma not_explicit e o : given (or_else (o_run_id o) (inferred_run_id e)) && negb (o_local o) = false ->
  o_local o = true \/ names_no_run e o.
Proof.
  intro H. destruct (or_else (o_run_id o) (inferred_run_id e)) as [r|] eqn:E; cbn in H.
  - left. destruct (o_local o); [reflexivity|discriminate].
  - right. apply external_none, E.
Qed.

Lemma from_cli_starts e stored api unique o calls s :
  let ext := or_else (o_run_id o) (inferred_run_id e) in
  let explicit := given ext && negb (o_local o) in
  let r := run_for unique ext in
  ((calls = [] /\ (o_local o = true \/ no_access stored o)) \/
   (exists t x, calls = [(t, r)] /\ has_access stored o t /\ api t r = Some x /\ kind_of x = Personal /\
                o_local o = false /\ explicit = false)) ->
  let res := resolve_from_cli (Text := Text) (o_queue_addr o) (o_tls_key o) (o_token o) (o_tls_cert o) in
  match validate_queue_location (r_where res) explicit with
  | Some no => inr no
  | None =>
      match o_args o with
      | [] => inr NoExecutable
      | cmd :: args =>
          match find_or_create (r_where res) (r_token res) (r_cert res) with
          | inr no => inr no
          | inl q =>
              inl {| s_run_id := r; s_queue := q; s_token := r_token res; s_cert := r_cert res;
                     s_mode := match r_kind res with Some Personal => Readonly | _ => WriteNormal end;
                     s_max_run_number := ((1 + o_retries o) mod 2 ^ 32)%N;
                     s_telemetry := is_remote (r_where res); s_command := (cmd, args) |}
          end
      end
  end = inl s -> how e stored api unique o calls s.
Proof.
  intros ext explicit r C res. subst res. cbn [resolve_from_cli r_where r_token r_cert r_kind].
  destruct (o_queue_addr o) as [a|] eqn:A; cbn [validate_queue_location is_remote].
  - cbn [negb]. rewrite andb_false_r.
    destruct (o_args o) as [|cmd args] eqn:G; [discriminate|]. cbn [find_or_create].
    intro H. injection H as <-. apply HGiven; [exact A|exact G|apply run_known|].
    destruct C as [C|(t & x & -> & T & X & K & L & N)]; [left; exact C|right].
    exists t, x. apply not_explicit in N. destruct N as [N|N]; [congruence|].
    repeat (split; [assumption || reflexivity|]). assumption.
  - cbn [negb]. destruct explicit eqn:Ex; cbn [andb]; [discriminate|].
    destruct (o_args o) as [|cmd args] eqn:G; [discriminate|]. cbn [find_or_create].
    destruct (o_tls_cert o) as [c|] eqn:Ce; destruct (o_tls_key o) as [k|] eqn:Ke; try discriminate;
      intro H; injection H as <-; rewrite <- Ce; apply HOwn; try rewrite Ce; try rewrite Ke; try assumption; try reflexivity;
      try apply run_known; try (apply not_explicit; exact Ex).
    + destruct C as [C|(t & x & -> & T & X & K & L & N)]; [left; exact C|right].
      exists t, x. repeat (split; [assumption || reflexivity|]). assumption.
    + destruct C as [C|(t & x & -> & T & X & K & L & N)]; [left; exact C|right].
      exists t, x. repeat (split; [assumption || reflexivity|]). assumption.
Qed.

Lemma both {A B} (a c : A) (b d : B) : (a, b) = (c, d) -> a = c /\ b = d.
Proof. intro H. split; congruence. Qed.

Lemma started_how e stored api unique o calls s :
  test_command e stored api unique o = (calls, inl s) -> how e stored api unique o calls s.
Proof.
  unfold test_command, ask_api.
  change (match or_else (o_run_id o) (inferred_run_id e) with Some r => r | None => unique end)
    with (run_for unique (or_else (o_run_id o) (inferred_run_id e))).
  set (ext := or_else (o_run_id o) (inferred_run_id e)).
  destruct (o_local o) eqn:L.
  { intro H. apply both in H. destruct H as (<- & H). apply from_cli_starts with (calls := []); [left; auto|].
    rewrite L. exact H. }
  destruct (or_else (o_access_token o) stored) as [t|] eqn:T.
  2:{ intro H. apply both in H. destruct H as (<- & H). apply access_none in T. apply from_cli_starts with (calls := []); [left; auto|].
      rewrite L. exact H. }
  apply access_some in T.
  destruct (api t (run_for unique ext)) as [x|] eqn:X; [|discriminate].
  intro H. apply both in H. destruct H as (<- & H). unfold resolve_config in H.
  destruct (negb (is_personal (kind_of x)) || (given ext && negb false)) eqn:B.
  - destruct x as [q tok c k|u k]; cbn [resolve_with_api r_where r_token r_cert r_kind validate_queue_location] in H; [|discriminate].
    cbn [is_remote negb] in H. rewrite andb_false_r in H.
    destruct (o_args o) as [|cmd args] eqn:G; [discriminate|]. cbn [find_or_create] in H.
    injection H as <-.
    replace (match k with Personal => Readonly | _ => WriteNormal end)
      with (match k with Personal => Readonly | Organization => WriteNormal end) by (destruct k; reflexivity).
    apply (HHosted e stored api unique o t _ q tok c k); try assumption.
    destruct ext as [r|] eqn:E.
    + left. apply external_some, E.
    + right. cbn [given andb] in B. rewrite orb_false_r in B. split; [apply external_none, E|].
      split; [reflexivity|]. cbn [kind_of] in B. destruct k; [discriminate|reflexivity].
  - apply orb_false_iff in B. destruct B as (B1 & B2).
    apply from_cli_starts with (calls := [(t, run_for unique ext)]).
    + right. exists t, x. fold ext. rewrite L.
      repeat (split; [assumption || reflexivity|]). split; [|split; [reflexivity|exact B2]].
      destruct (kind_of x); [reflexivity|discriminate].
    + fold ext. rewrite L. exact H.
Qed.

End CliProofs.
