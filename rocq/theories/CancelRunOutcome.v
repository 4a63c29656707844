(* What the workers of a run that may be cancelled have reported. *)
From Verif Require Import Base JobQueueModel JobQueueSpec JobQueueLemmas.
From Verif Require Import StatusModel FetchModel FetchSpec FetchProofs FetchAttempts RunnerModel RunnerSpec RunnerProofs RunnerLive SystemModel SystemSpec RunnerFeed SystemProofs SystemEnd SystemLive.
From Verif Require Import ReportModel ReportSpec ReportProofs OutcomeModel OutcomeSpec OutcomeProofs.
From Verif Require Import CancelRunModel CancelRunSpec CancelRunProofs CancelRunEnd.

Lemma view_crash_known c ps k z sl : sound c ps -> CInv c ps k z -> In sl (y_slots (k_system k)) -> crash_known (sl_runner sl).
Proof.
  intros SO I S. apply In_nth_error in S as (i & E).
  assert (EZ : exists zl, nth_error (y_slots z) i = Some zl).
  { destruct (nth_error (y_slots z) i) eqn:Q; eauto. apply nth_error_None in Q. assert (i < length (y_slots (k_system k))) by (apply nth_error_Some; congruence). pose proof (n_len _ _ _ _ I). lia. }
  destruct EZ as (zl & EZ). destruct (slot_of c ps z zl (n_z _ _ _ _ I) (nth_error_In _ _ EZ)) as [IP SI].
  destruct (s_run _ _ _ SI) as (es0 & RU0). assert (K : crash_known (sl_runner zl)) by (rewrite RU0; apply crash_known_run).
  destruct (n_slot _ _ _ _ I i sl zl E EZ) as [[_ C]|[_ ->]]; auto.
  destruct (u_run _ _ _ C) as (es & ->). apply (run_invariant (rstep (p_batch (sl_params zl))) crash_known); [intros; now apply crash_known_step|]. exact K.
Qed.

Lemma cancel_facts c ps k z : sound c ps -> CInv c ps k z -> Facts (k_system k).
Proof.
  intros SO I. constructor.
  - intros sl S. now destruct (view_reports c ps k z sl SO I S).
  - intros sl S F. destruct (slot_view c ps k z sl SO I S) as (ss & PR & M & B & _ & R & _).
    pose proof (finished_all _ _ _ _ R F) as K. destruct (v_hist _ _ _ _ R) as (es & IO & W).
    destruct (hist_order _ _ PR M es IO) as (rest & retries & _ & H & L & _). rewrite <- W in H.
    unfold reported_by. rewrite H, map_app in K. apply map_eq_app in K as (F1 & R1 & E & K1 & K2). exists F1, R1. split; auto.
    assert (G : forall (P : nat -> Prop) (rs : list aresult) (ts : list wtest), map rkey rs = map FetchSpec.key ts -> Forall (fun t => P (wt_run t)) ts -> Forall (fun r => P (ar_run r)) rs).
    { intros P. induction rs as [|r rs IH]; intros [|t ts] Q X; try discriminate; constructor; inversion X; subst; injection Q as Q1 Q2 Q3; [now rewrite Q2|eauto]. }
    split.
    + apply (G (fun n => n = 1) _ _ K1). apply Forall_forall. intros t T. unfold FetchSpec.first_attempts in T. apply filter_In in T as [_ T]. now apply Nat.eqb_eq.
    + apply (G (fun n => 1 < n) _ _ K2). exact L.
  - intros sl S F C. destruct (slot_view c ps k z sl SO I S) as (ss & PR & M & B & _ & R & _).
    destruct (view_crash_known c ps k z sl SO I S C) as (t & R0 & A). destruct F as (P & D & cr & T).
    destruct A as [(rem & Q & _)|(_ & us & RE)]; [congruence|].
    destruct (v_done _ _ _ _ R D) as (RS & BF & _). unfold reports in RE. rewrite RS, BF, T in RE. cbn [results_in flat_map app] in RE. rewrite app_nil_r in RE.
    unfold reported_by. rewrite RE. destruct (exists_last (l := t :: us)) as (us' & u & EU); [discriminate|]. rewrite EU, map_app, app_assoc. cbn [map].
    eexists _, _. split; [reflexivity|]. exists 0. reflexivity.
  - intros i j si sj ri rj. now apply (view_one_runner c ps k z).
Qed.
