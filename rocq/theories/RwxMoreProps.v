(* More of C46: the errors of a report are in the order of the results they come from. *)
From Verif Require Import Base StatusModel ReportModel RwxModel RwxSpec.

Section C46.
Context {P : Type}.

(* what may be listed as an error because of a result: the error of a native runner, in the result itself or in one of its past attempts,
   and a failure outside of any file *)
Inductive mentions : spec P -> message -> Prop :=
| m_own s : sp_status s = PrivateNativeRunnerError -> mentions s (match sp_output s with Some o => MOutput o | None => MNoOutput end)
| m_past s l x m : sp_past s = Some l -> In x l -> mentions x m -> mentions s m
| m_outside s : sp_loc s = None -> (sp_status s = Failure \/ sp_status s = Error) -> mentions s (MOutside (sp_name s) (sp_output s)).

Lemma from_mentions src : forall s : spec P,
  match attempt_from src s with
  | OSynthetic m => mentions s m
  | OAttempt a _ errs => Forall (mentions s) errs /\
      forall e m b, at_status a = AFailed e m b -> (sp_status s = Failure \/ sp_status s = Error) /\ m = sp_output s
  end.
Proof.
  fix IH 1. intros [i n l st exc bt out rest past]. cbn [attempt_from].
  destruct (conv_status st exc bt out) as [a|m] eqn:C.
  - assert (X : forall e m b, a = AFailed e m b -> (st = Failure \/ st = Error) /\ m = out)
      by (intros e m b ->; destruct st; cbn in C; try discriminate; injection C as <- <- <-; auto).
    destruct past as [q|]; [|split; [constructor|exact X]].
    assert (Y : Forall (fun m => exists x, In x q /\ mentions x m)
       (snd ((fix go (l0 : list (spec P)) : list (attempt P) * list message :=
            match l0 with
            | [] => ([], [])
            | x :: t =>
                let '(atts, errs) := go t in
                match attempt_from src x with
                | OSynthetic m => (atts, m :: errs)
                | OAttempt a0 p e => (a0 :: opt_list p ++ atts, e ++ errs)
                end
            end) q))).
    { clear X C. induction q as [|x q Q]; [constructor|].
      destruct ((fix go (l0 : list (spec P)) : list (attempt P) * list message := _) q) as [atts errs]. cbn [snd] in Q.
      assert (Q' : Forall (fun m => exists y, In y (x :: q) /\ mentions y m) errs)
        by (eapply Forall_impl; [|exact Q]; intros m (y & I & M); exists y; split; [now right|exact M]).
      specialize (IH x). destruct (attempt_from src x) as [m|a0 p e].
      - cbn [snd]. constructor; [exists x; split; [now left|exact IH]|exact Q'].
      - cbn [snd]. apply Forall_app. split; [|exact Q']. eapply Forall_impl; [|exact (proj1 IH)]. intros m M. exists x. split; [now left|exact M]. }
    destruct ((fix go (l0 : list (spec P)) : list (attempt P) * list message := _) q) as [atts errs]. cbn [snd] in Y. split; [|exact X].
    eapply Forall_impl; [|exact Y]. intros m (x & I & M). eapply m_past; [reflexivity|exact I|exact M].
  - destruct st; try discriminate. injection C as <-. apply (m_own (Spec i n l PrivateNativeRunnerError exc bt out rest past)). reflexivity.
Qed.

Lemma push_errors (c : collector P) r : exists ms, c_errors (push_result c r) = c_errors c ++ ms /\ Forall (mentions (tr_spec r)) ms.
Proof.
  unfold push_result. assert (F := from_mentions (tr_src r) (tr_spec r)).
  destruct (mget (sp_id (tr_spec r)) (c_tests c)) as [u|], (attempt_from (tr_src r) (tr_spec r)) as [m|a past errs].
  - exists [m]. auto.
  - exists errs. tauto.
  - exists [m]. auto.
  - destruct F as [F1 F2]. cbn [te_loc te_attempt te_name]. destruct (sp_loc (tr_spec r)) eqn:L; [exists errs; auto|].
    destruct (at_status a) eqn:A; try (exists errs; auto; fail). destruct (F2 _ _ _ eq_refl) as [S ->]. cbn [c_errors].
    exists (errs ++ [MOutside (sp_name (tr_spec r)) (sp_output (tr_spec r))]). rewrite app_assoc. split; [reflexivity|].
    apply Forall_app. split; [exact F1|]. constructor; [|constructor]. now apply m_outside.
Qed.

Lemma fold_errors rs : forall c : collector P, exists groups,
  c_errors (fold_left push_result rs c) = c_errors c ++ concat groups /\ Forall2 (fun r ms => Forall (mentions (tr_spec r)) ms) rs groups.
Proof.
  induction rs as [|r rs IH]; intros c; cbn [fold_left].
  - exists []. rewrite app_nil_r. auto.
  - destruct (IH (push_result c r)) as (gs & E & F). destruct (push_errors c r) as (ms & E1 & F1).
    exists (ms :: gs). rewrite E, E1. cbn [concat]. rewrite app_assoc. auto.
Qed.

(* The errors of a report, split by the results they come from, are in the order of the results. *)
Theorem C46_errors_in_order (rs : list (tresult P)) rep : reports rs rep ->
  exists groups, rp_errors rep = concat groups /\ Forall2 (fun r ms => Forall (mentions (tr_spec r)) ms) rs groups.
Proof. intros (vals & _ & ->). cbn [test_results rp_errors]. exact (fold_errors rs cnew). Qed.
End C46.
Print Assumptions C46_errors_in_order.

(* two errors in two results *)
Example C46_errors_in_order_example :
  let r1 := {| tr_src := (1, 1); tr_spec := Spec 1 101 None Failure None None (Some 5) 0 None |} : tresult nat in
  let r2 := {| tr_src := (1, 1); tr_spec := Spec 2 102 None PrivateNativeRunnerError None None (Some 6) 0 None |} in
  exists rep, reports [r1; r2] rep /\ rp_errors rep = [MOutside 101 (Some 5); MOutput 6].
Proof. eexists. split; [exists []; split; [apply perm_nil|reflexivity]|reflexivity]. Qed.
