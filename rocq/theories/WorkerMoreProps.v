(* Further property theorems of C69. *)
From Verif Require Import Base RunModel PoolModel PoolSpec WorkerModel WorkerSpec WorkerProofs WorkerProps.
From Coq Require Import ZArith.
Local Open Scope Z_scope.

(* a byte of a text that is to be shown: not a tab, newline, form feed, carriage return or space *)
Definition visible (b : nat) : Prop := ~ In b [9; 10; 12; 13; 32]%nat.

(* What generating the manifest wrote is shown, unchanged, if there is a visible byte in it,
   and not otherwise. *)
Theorem C69_manifest_output_is_shown g w b r rs p first i t :
  w_phase w = Waiting (Pool b r) (Some (Ended rs (Some p))) -> w_signal w = false ->
  x_manifest_output (shutdown rs) = Some (i, t) ->
  exists os, w_log (wstep g w (EPoll first)) = w_log w ++ os /\
    ((exists c, In c t /\ visible c) -> manifest_outputs os = [t]) /\
    ((forall c, In c t -> ~ visible c) -> manifest_outputs os = []).
Proof.
  intros P S X. destruct (C69_prints g w b r rs p first P S) as (os & E & _ & M & _). exists os. split; auto. rewrite M, X.
  assert (SP : forall c, is_space c = true <-> ~ visible c).
  { intros c. unfold is_space, visible. rewrite existsb_exists. split.
    - intros (y & I & Q) N. apply Nat.eqb_eq in Q. subst y. tauto.
    - intros N. destruct (in_dec Nat.eq_dec c [9; 10; 12; 13; 32]%nat) as [I|I]; [|tauto]. exists c. split; auto. apply Nat.eqb_refl. }
  split.
  - intros (c & I & V). destruct (is_blank t) eqn:Q; auto. exfalso. unfold is_blank in Q. rewrite forallb_forall in Q. apply SP in V; auto.
  - intros A. replace (is_blank t) with true; auto. symmetry. unfold is_blank. apply forallb_forall. intros c I. apply SP. auto.
Qed.

(* the attempts to attach up to the one that decides *)
Fixpoint up_to_decision (es : list wevent) : list wevent :=
  match es with [] => [] | e :: es' => e :: (if decisive e then [] else up_to_decision es') end.
(* those in which the request was written to a connection *)
Definition was_sent (e : wevent) : bool :=
  match e with EAttempt NoConnection _ | EAttempt WriteFailed _ => false | EAttempt _ _ => true | _ => false end.
Definition requests (os : list out) : nat := length (filter (fun o => match o with Asked => true | _ => false end) os).

Lemma requests_app a b : requests (a ++ b) = (requests a + requests b)%nat.
Proof. unfold requests. now rewrite filter_app, app_length. Qed.
Definition negotiating (w : worker) : bool := match w_phase w with Negotiating _ => true | _ => false end.

Lemma settled_step g w e : negotiating w = false -> negotiating (wstep g w e) = false /\ requests (w_log (wstep g w e)) = requests (w_log w).
Proof.
  assert (SH : forall n x, requests (w_log (do_shutdown g w n x)) = requests (w_log w)).
  { intros n [rs [p|]|]; cbn [do_shutdown go w_log]; rewrite requests_app; try apply Nat.add_0_r.
    rewrite !requests_app.
    assert (M : forall o, requests (manifest_output o) = 0%nat) by (intros [[j t]|]; cbn; auto; now destruct (is_blank t)).
    assert (O : forall l, requests (process_outputs g l) = 0%nat).
    { induction l as [|[j t] l IH]; auto. unfold process_outputs in *. cbn [flat_map]. rewrite requests_app, IH. now destruct (g_piped g || _). }
    assert (E : forall ts, requests (print_errors ts) = 0%nat) by now intros [|].
    rewrite M, O, E. unfold summary_output.
    destruct (x_status _) as [c|es], (Nat.ltb 0 (p_count p)), (g_write g && g_remote g); cbn [orb]; rewrite ?E; cbn; rewrite ?Nat.add_0_r; auto. }
  assert (SP : forall n x, negotiating (do_shutdown g w n x) = false) by now intros n [rs [p|]|].
  unfold negotiating in *. intros N. destruct w as [ph sg lg]. cbn [w_phase w_log] in *. destruct ph as [d|n en|n en|c]; [discriminate| | |].
  - destruct e as [a ok| |x|b]; cbn [wstep w_phase w_signal]; auto.
    + destruct n as [| |pb pr], en; cbn [go w_phase w_log]; rewrite ?app_nil_r; auto.
    + destruct (sg && _).
      * cbn [go w_phase w_log]. rewrite requests_app. destruct n; cbn [requests]; split; auto; cbn; apply Nat.add_0_r.
      * destruct (wait_over n en); auto.
  - destruct e as [a ok| |x|b]; cbn [wstep w_phase w_signal]; auto.
    + destruct n as [| |pb pr], en; cbn [go w_phase w_log]; rewrite ?app_nil_r; auto.
    + destruct (wait_over n en) as [[|]|]; cbn [go w_phase w_log]; rewrite ?app_nil_r; auto.
  - destruct e; cbn; auto.
Qed.
Lemma settled_run g es : forall w, negotiating w = false -> requests (w_log (run (wstep g) w es)) = requests (w_log w).
Proof.
  induction es as [|e es IH]; intros w N; auto. cbn [run fold_left]. destruct (settled_step g w e N) as [N' R]. unfold run in IH. rewrite IH; auto.
Qed.
Lemma decided_request w d a ok : decisive (EAttempt a ok) = true ->
  negotiating (negotiate w d a ok) = false /\ requests (w_log (negotiate w d a ok)) = (requests (w_log w) + length (filter was_sent [EAttempt a ok]))%nat.
Proof.
  intros D. destruct a as [| | |[c|re|kd df| |]]; try discriminate D; cbn [negotiate]; try (destruct (df && negb ok)); split; try reflexivity;
    cbn [go w_log]; rewrite !requests_app; cbn; try (destruct df); reflexivity.
Qed.
Lemma requests_run g es : forall w, negotiating w = true ->
  requests (w_log (run (wstep g) w es)) = (requests (w_log w) + length (filter was_sent (up_to_decision es)))%nat.
Proof.
  induction es as [|e es IH]; intros w N; cbn [run fold_left up_to_decision]; [cbn; lia|].
  unfold negotiating in N. destruct w as [ph sg lg]. cbn [w_phase] in N. destruct ph as [d| | |]; try discriminate. unfold run in IH.
  destruct e as [a ok| |x|b].
  - destruct (decisive (EAttempt a ok)) eqn:D.
    { cbn [wstep w_phase] in *. pose proof (settled_run g es _ (proj1 (decided_request {| w_phase := Negotiating d; w_signal := sg; w_log := lg |} d a ok D))) as Q.
      unfold run in Q. rewrite Q. exact (proj2 (decided_request {| w_phase := Negotiating d; w_signal := sg; w_log := lg |} d a ok D)). }
    destruct a as [| | |[c|re|kd df| |]]; try discriminate D.
    rewrite IH by reflexivity. cbn [wstep w_phase negotiate go w_log filter was_sent length]. rewrite requests_app. cbn [requests filter length]. change (requests [Asked; Slept d]) with 1%nat. lia.
  - rewrite IH by reflexivity. reflexivity.
  - rewrite IH by reflexivity. reflexivity.
  - rewrite IH by reflexivity. reflexivity.
Qed.

(* The requests to attach that the process has sent are the attempts at which it could
   connect and write, up to the first that was not answered by "not known yet": after that it
   sends none, whatever happens. *)
Theorem C69_requests g es : requests (w_log (run (wstep g) winit es)) = length (filter was_sent (up_to_decision es)).
Proof. exact (requests_run g es winit eq_refl). Qed.

(* A signal that is noticed only after the runners have ended changes nothing. *)
Theorem C69_signal_too_late g n ended log : ((forall b r, n <> Pool b r) \/ ended <> None) ->
  let seen sg := wstep g {| w_phase := Waiting n ended; w_signal := sg; w_log := log |} (EPoll false) in
  w_phase (seen true) = w_phase (seen false) /\ w_log (seen true) = w_log (seen false) /\ exists c, w_phase (seen true) = Exited c.
Proof.
  intros H seen. unfold seen. cbn [wstep w_phase w_signal andb orb].
  assert (E : exists e, wait_over n ended = Some e).
  { destruct n as [c|r|b r]; cbn; eauto; destruct ended as [e|]; eauto; exfalso; destruct H as [H|H]; [exact (H _ _ eq_refl)|congruence]. }
  destruct E as [e ->]. destruct e as [rs [p|]|]; cbn; eauto.
Qed.

Example C69_requests_example : forall g,
  requests (w_log (run (wstep g) winit [EAttempt (Got MUnknown) true; ESignal; EAttempt (Got MUnknown) true; EAttempt ReadFailed true; EAttempt (Got MUnknown) true])) = 3%nat /\
  requests (w_log (run (wstep g) winit [EAttempt (Got MUnknown) true; EAttempt WriteFailed true])) = 1%nat.
Proof. intros g. split; reflexivity. Qed.
Example C69_shown_example :
  let rs := [@ROk unit 0 (Some [32; 10]%nat) {| so_out := []; so_err := [] |} [] None] in
  x_manifest_output (shutdown rs) = Some (1%nat, [32; 10]%nat) /\ (forall c, In c [32; 10]%nat -> ~ visible c) /\ visible 65.
Proof. split; [reflexivity|]. split; [intros c [<-|[<-|[]]]|]; unfold visible; simpl; lia. Qed.

Print Assumptions C69_manifest_output_is_shown.
Print Assumptions C69_requests.
Print Assumptions C69_signal_too_late.
