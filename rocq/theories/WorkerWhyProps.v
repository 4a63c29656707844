(* C69: what a worker says of a run that was cancelled. *)
From Coq Require Import String ZArith Lia.
From Verif Require Import Base RunModel PoolModel PoolSpec WorkerModel WorkerSpec WorkerProofs WorkerProps.
Local Open Scope Z_scope.
Local Open Scope list_scope.

(* the reason as it is put to the user *)
Definition why (r : cancel_reason) : string :=
  match r with
  | CRUser => "This run was cancelled because a worker received a cancellation signal while still working on tests."
  | CRManifestHadNoProgress => "This run was cancelled because the run timed out before any tests were completed."
  | CRManifestNeverReceived => "This run was cancelled because the run timed out before the test manifest was received."
  end.
(* [t] is two lines, of which the second is [s] *)
Definition ends_with_line (t : text) (s : string) : Prop :=
  exists first, t = first ++ 10%nat :: bytes s /\ ~ In 10%nat first /\ ~ In 10%nat (bytes s).

Lemma no_line l : existsb (Nat.eqb 10) l = false -> ~ In 10%nat l.
Proof. intros H I. assert (X : existsb (Nat.eqb 10) l = true) by (apply existsb_exists; exists 10%nat; split; [exact I|reflexivity]). congruence. Qed.
Lemma cancel_text_lines r : ends_with_line (cancel_text r) (why r).
Proof.
  exists (bytes "Error: This ABQ run was cancelled. When an ABQ run is cancelled, it can no longer be retried. You must start a run with a new run ID instead.").
  destruct r; (split; [vm_compute; reflexivity|]); split; apply no_line; vm_compute; reflexivity.
Qed.

Lemma errors_app a b : errors (a ++ b) = errors a ++ errors b.
Proof. unfold errors. apply flat_map_app. Qed.
Lemma errors_asks k : forall i, errors (flat_map (fun j => [Asked; Slept (pause j)]) (seq i k)) = [].
Proof. induction k as [|k IH]; intros i; auto. cbn [seq flat_map]. rewrite errors_app, IH. reflexivity. Qed.

(* how it goes on after the answer *)
Definition on_its_way (r : cancel_reason) (w : worker) : Prop :=
  match w_phase w with
  | Waiting n e => n = NCancelled r /\ e = None /\ errors (w_log w) = []
  | Cancelling n e => n = NCancelled r /\ e = None /\ errors (w_log w) = []
  | Exited c => (c = 101 /\ errors (w_log w) = [cancel_text r]) \/ (c = 1 /\ errors (w_log w) = [])
  | Negotiating _ => False
  end.
Lemma on_its_way_step g r w e : on_its_way r w -> on_its_way r (wstep g w e).
Proof.
  unfold on_its_way. destruct w as [ph sg lg]. cbn [w_phase w_log]. destruct ph as [d|n en|n en|c]; [easy| | |].
  - intros (-> & -> & L). destruct e as [a ok| |x|b]; cbn [wstep w_phase w_log]; auto.
    cbn [wait_over w_signal]. destruct (sg && (b || false)); cbn [go w_phase w_log do_shutdown exit_of].
    + rewrite errors_app, L. auto.
    + left. split; [reflexivity|]. rewrite errors_app, L. reflexivity.
  - intros (-> & -> & L). destruct e as [a ok| |x|b]; cbn [wstep w_phase w_log]; auto.
    cbn [wait_over go w_phase w_log]. right. split; [reflexivity|]. now rewrite errors_app, L.
  - intros H. destruct e as [a ok| |x|b]; cbn [wstep w_phase w_log]; auto.
Qed.
Lemma on_its_way_run g r es : forall w, on_its_way r w -> on_its_way r (run (wstep g) w es).
Proof. induction es as [|e es IH]; intros w H; auto. cbn [run fold_left]. apply IH. now apply on_its_way_step. Qed.

(* A worker of a run that was cancelled says in two lines that it was cancelled and why, and exits with 101; it says
   nothing of it only if it was told to stop itself, and then it exits with 1. *)
Theorem C69_cancelled_says_why g es1 r ok es2 c : undecided es1 ->
  let w := run (wstep g) winit (es1 ++ EAttempt (Got (MCancelled r)) ok :: es2) in
  w_phase w = Exited c ->
  (c = 101 /\ exists t, errors (w_log w) = [t] /\ ends_with_line t (why r)) \/
  (c = 1 /\ In ESignal (es1 ++ EAttempt (Got (MCancelled r)) ok :: es2) /\ errors (w_log w) = []).
Proof.
  intros U w X.
  assert (O : on_its_way r w).
  { subst w. unfold run. rewrite fold_left_app. cbn [fold_left]. apply (on_its_way_run g r es2).
    destruct (C69_keeps_asking g es1 U) as [[d P] L]. unfold run in P, L. unfold wstep at 1. rewrite P. cbn [negotiate go on_its_way w_phase w_log].
    unfold on_its_way. cbn [go w_phase w_log]. rewrite L, errors_app, errors_asks. auto. }
  unfold on_its_way in O. rewrite X in O. destruct O as [[-> E]|[-> E]].
  - left. split; [reflexivity|]. exists (cancel_text r). split; [exact E|apply cancel_text_lines].
  - right. split; [reflexivity|]. split; [|exact E].
    pose proof (good_run g (es1 ++ EAttempt (Got (MCancelled r)) ok :: es2)) as [_ G]. fold w in G. rewrite X in G.
    destruct G as (e1 & a & k & e2 & E1 & U1 & D & R & _).
    assert (Q : a = Got (MCancelled r)).
    { clear - E1 U U1 D. revert e1 E1 U1. induction es1 as [|e es1 IH]; intros [|f e1] E1 U1; cbn in E1.
      - now injection E1 as <- _ _.
      - injection E1 as <- _. inversion U1. discriminate.
      - injection E1 as -> _. inversion U as [|? ? F]. destruct a as [| | |[]]; try discriminate. now contradiction D.
      - injection E1 as -> E1. inversion U. inversion U1. eapply IH; eauto. }
    subst a. cbn [right_code] in R. destruct R as [R|[R _]]; [discriminate|exact R].
Qed.

Example C69_why_ex : forall g, 
  let w := run (wstep g) winit [EAttempt (Got MUnknown) true; EAttempt (Got (MCancelled CRManifestNeverReceived)) true; EPoll false] in
  w_phase w = Exited 101 /\ errors (w_log w) = [cancel_text CRManifestNeverReceived].
Proof. intros g. vm_compute. split; reflexivity. Qed.

Print Assumptions C69_cancelled_says_why.
