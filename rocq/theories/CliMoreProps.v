(* More of C73: which command lines of `abq test` are refused before anything is asked or started. *)
From Verif Require Import Base CliModel.
From Coq Require Import NArith.

Section C73.
Context {Addr Token Access Bytes Id Text : Type}.
Implicit Types o : options Addr Token Access Bytes Id Text.

(* the options that may not be given together, the one that needs another, a number that is none, no command *)
Definition clash o : Prop :=
  (o_access_token o <> None /\ o_queue_addr o <> None) \/
  (o_tls_key o <> None /\ o_access_token o <> None) \/
  (o_tls_key o <> None /\ o_queue_addr o <> None) \/
  (o_local o = true /\ o_queue_addr o <> None) \/
  (o_tls_key o <> None /\ o_tls_cert o = None) \/
  (2 ^ 32 <= o_retries o)%N \/ o_args o = [].

Theorem C73_refused_iff_clash o : accepted o = false <-> clash o.
Proof.
  unfold accepted, clash. destruct (N.ltb_spec (o_retries o) (2 ^ 32)) as [L|L];
  destruct (o_access_token o), (o_queue_addr o), (o_tls_key o), (o_tls_cert o), (o_local o), (o_args o); cbn;
    (split; [intros X; first [discriminate X | tauto | (repeat first [left; split; congruence | right]); congruence] |
             intros X; first [reflexivity | exfalso; repeat match goal with H : _ \/ _ |- _ => destruct H | H : _ /\ _ |- _ => destruct H end; try congruence; lia]]).
Qed.
End C73.
Print Assumptions C73_refused_iff_clash.

Example C73_clash_example : let o x := {| o_run_id := None; o_access_token := Some 1; o_local := false; o_queue_addr := x; o_token := None;
    o_tls_cert := None; o_tls_key := None; o_retries := (2 ^ 32 - 1)%N; o_args := [7] |} : options nat nat nat nat nat nat in
  accepted (o None) = true /\ accepted (o (Some 2)) = false.
Proof. vm_compute. auto. Qed.
