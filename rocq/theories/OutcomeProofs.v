From Verif Require Import Base JobQueueModel JobQueueSpec JobQueueLemmas StatusModel FetchModel FetchSpec FetchProofs.
From Verif Require Import RunnerModel RunnerSpec RunnerProofs RunnerLive SystemModel SystemSpec RunnerFeed SystemProofs SystemEnd.
From Verif Require Import ReportModel ReportSpec ReportProofs OutcomeModel OutcomeSpec.

(* ---- a runner that crashed has reported so ---- *)

Definition crash_known (s : runner) : Prop := crashed s -> exists t R0, after_crash t R0 s.

Lemma crash_known_step batch s e : crash_known s -> crash_known (rstep batch s e).
Proof.
  intros K C. assert (D : crashed s \/ ~ crashed s) by (unfold crashed; destruct (r_task s); try destruct crashed; tauto).
  destruct D as [D|D].
  - destruct (K D) as (t & R0 & A). exists t, R0. now apply after_crash_step.
  - destruct e as [|o|].
    + exfalso. apply (no_crash_step batch s Producer); auto. discriminate.
    + destruct o as [rs|].
      * exfalso. apply (no_crash_step batch s (Task (Answered rs))); auto. discriminate.
      * assert (Q : (exists t, r_task s = TRun t) \/ rstep batch s (Task RunnerModel.Failed) = rstep batch s (Task (Answered []))).
        { cbn [rstep]. unfold step_task. destruct (r_task s); eauto. }
        destruct Q as [(t & T)|Q]; [exists t, (reports s); apply (crash_reports batch s t []); exact T|].
        exfalso. rewrite Q in C. revert C. apply (no_crash_step batch s (Task (Answered []))); auto. discriminate.
    + exfalso. apply (no_crash_step batch s Sender); auto. discriminate.
Qed.

Lemma crash_known_run batch ss max es : crash_known (run (rstep batch) (rinit ss max) es).
Proof. apply (run_invariant (rstep batch) crash_known); [intros; now apply crash_known_step|]. intros []. Qed.

(* ---- what the slots of a finished run have reported ---- *)

Section Run.
Variables (c : config nat) (ps : list params) (y : system).
Hypothesis SO : sound c ps.
Hypothesis I : SInv c ps y.

Lemma crashed_errors sl : In sl (y_slots y) -> finished (sl_runner sl) -> crashed (sl_runner sl) ->
  exists pre r, reported_by sl = pre ++ [r] /\ exists n, r = error_result (ar_run r) n (ar_work r).
Proof.
  intros S F C. destruct (slot_of c ps y sl I S) as [IP SI]. destruct (slot_rinv c ps y sl SO (y_reach _ _ _ I) IP SI) as (PR & M & B & R).
  destruct (s_run _ _ _ SI) as (es & E). assert (K : crash_known (sl_runner sl)) by (rewrite E; apply crash_known_run).
  destruct (K C) as (t & R0 & A). destruct F as (P & D & cr & T).
  destruct A as [(rem & Q & _)|(_ & us & RE)]; [congruence|].
  destruct (v_done _ _ _ _ R D) as (RS & BF & _). unfold reports in RE. rewrite RS, BF, T in RE. cbn [results_in flat_map app] in RE. rewrite app_nil_r in RE.
  unfold reported_by. rewrite RE. destruct (exists_last (l := t :: us)) as (us' & u & EU); [discriminate|]. rewrite EU, map_app, app_assoc. cbn [map].
  eexists _, _. split; [reflexivity|]. exists 0. reflexivity.
Qed.

Lemma finished_split sl : In sl (y_slots y) -> finished (sl_runner sl) ->
  exists F R, reported_by sl = F ++ R /\ Forall (fun r => ar_run r = 1) F /\ Forall (fun r => 1 < ar_run r) R.
Proof.
  intros S F. destruct (slot_of c ps y sl I S) as [IP SI]. destruct (slot_rinv c ps y sl SO (y_reach _ _ _ I) IP SI) as (PR & M & B & R).
  pose proof (finished_all _ _ _ _ R F) as K. destruct (v_hist _ _ _ _ R) as (es & IO & W).
  destruct (hist_order _ _ PR M es IO) as (rest & retries & _ & H & L & _). rewrite <- W in H.
  unfold reported_by. rewrite H, map_app in K. apply map_eq_app in K as (F1 & R1 & E & K1 & K2). exists F1, R1. split; auto.
  assert (G : forall (P : nat -> Prop) (rs : list aresult) (ts : list wtest), map rkey rs = map FetchSpec.key ts -> Forall (fun t => P (wt_run t)) ts -> Forall (fun r => P (ar_run r)) rs).
  { intros P. induction rs as [|r rs IH]; intros [|t ts] Q X; try discriminate; constructor; inversion X; subst; injection Q as Q1 Q2 Q3; [now rewrite Q2|eauto]. }
  split.
  - apply (G (fun n => n = 1) _ _ K1). apply Forall_forall. intros t T. unfold FetchSpec.first_attempts in T. apply filter_In in T as [_ T]. now apply Nat.eqb_eq.
  - apply (G (fun n => 1 < n) _ _ K2). exact L.
Qed.
End Run.

(* ---- what a report contributes to the history of a case ---- *)

Definition att (t : nat) (r : aresult) : list (nat * bool) :=
  map (fun x => (ar_run r, is_fail_like (snd x))) (filter (fun x => Nat.eqb (fst x) t) (cases r)).

Lemma material_spec e : material e = negb (made_up (r_status (e_result e))).
Proof. unfold material. destruct (r_status (e_result e)); reflexivity. Qed.

Lemma attempts_att t l : attempts t (flat l) = flat_map (att t) (map core l).
Proof.
  unfold attempts, flat. induction l as [|a l IH]; auto. cbn [flat_map map]. rewrite filter_app, map_app, IH. f_equal. clear.
  unfold att, cases, core. cbn [ar_results ar_run]. induction (as_results a) as [|r rs IH]; auto. cbn [map filter fst snd].
  unfold of_test at 1. rewrite material_spec. cbn [e_result]. destruct (made_up (r_status r)); cbn [negb andb]; auto.
  cbn [filter fst]. destruct (Nat.eqb (r_id r) t); cbn [map e_run snd e_result]; [f_equal|]; exact IH.
Qed.

Lemma att_nil t r : ~ In t (map fst (cases r)) -> att t r = [].
Proof.
  unfold att. intros N. induction (cases r) as [|x l IH]; auto. cbn [map filter] in *. destruct (Nat.eqb_spec (fst x) t) as [E|E].
  - exfalso. apply N. now left.
  - apply IH. intros Q. apply N. now right.
Qed.
Lemma att_in t r n b : In (n, b) (att t r) <-> n = ar_run r /\ exists s, In (t, s) (cases r) /\ is_fail_like s = b.
Proof.
  unfold att. rewrite in_map_iff. split.
  - intros ([t' s] & E & J). apply filter_In in J as [J Q]. apply Nat.eqb_eq in Q. cbn [fst snd] in *. subst t'. injection E as <- <-. split; auto. exists s. auto.
  - intros (-> & s & J & <-). exists (t, s). split; auto. apply filter_In. split; auto. apply Nat.eqb_refl.
Qed.
Lemma att_one t r : NoDup (map fst (cases r)) -> In t (map fst (cases r)) -> exists b, att t r = [(ar_run r, b)].
Proof.
  unfold att. induction (cases r) as [|x l IH]; intros N J; [destruct J|]. cbn [map filter] in *. inversion N as [|? ? N1 N2]; subst.
  destruct (Nat.eqb_spec (fst x) t) as [E|E].
  - exists (is_fail_like (snd x)). cbn [map]. f_equal. assert (Q : filter (fun x0 => Nat.eqb (fst x0) t) l = []).
    { rewrite <- E. clear -N1. induction l as [|z l IH]; auto. cbn [map filter] in *. destruct (Nat.eqb_spec (fst z) (fst x)) as [Q|Q]; [exfalso; apply N1; now left|apply IH; intros K; apply N1; now right]. }
    now rewrite Q.
  - destruct J as [J|J]; [contradiction|]. now apply IH.
Qed.

Lemma flat_att_nil t rs : (forall r, In r rs -> ~ In t (map fst (cases r))) -> flat_map (att t) rs = [].
Proof. induction rs as [|r rs IH]; intros H; auto. cbn [flat_map]. rewrite att_nil by (apply H; now left). apply IH. intros r' J. apply H. now right. Qed.

(* reports of one attempt of different tests: only one is about a case *)
Lemma one_report t F W : identified F -> NoDup (map rkey F) -> Forall (fun r => ar_run r = 1) F ->
  (exists r, In r F /\ ar_work r = W /\ In t (map fst (cases r))) -> exists b, flat_map (att t) F = [(1, b)].
Proof.
  intros (I1 & I2 & _) N F1 (r & J & EW & C). apply in_split in J as (l1 & l2 & E).
  assert (X : forall r', In r' (l1 ++ l2) -> ~ In t (map fst (cases r'))).
  { intros r' J' C'. assert (J2 : In r' F) by (rewrite E; apply in_or_app; apply in_app_or in J' as []; [left|right; right]; auto).
    assert (JR : In r F) by (rewrite E; apply in_elt).
    assert (Q : ar_work r' = ar_work r) by (apply (I2 r' r t); auto). rewrite Forall_forall in F1.
    assert (K : rkey r' = rkey r) by (unfold rkey; rewrite Q, (F1 r' J2), (F1 r JR); reflexivity).
    rewrite E, map_app in N. cbn [map] in N. apply NoDup_remove_2 in N. apply N. rewrite <- map_app. rewrite <- K. now apply in_map. }
  assert (JR : In r F) by (rewrite E; apply in_elt).
  destruct (att_one t r (I1 r JR) C) as (b & B). exists b. rewrite E, flat_map_app. cbn [flat_map]. rewrite !flat_att_nil, B.
  - rewrite Forall_forall in F1. now rewrite (F1 r JR).
  - intros r' J'. apply X. apply in_or_app. auto.
  - intros r' J'. apply X. apply in_or_app. auto.
Qed.

Lemma later_att t R : Forall (fun r => 1 < ar_run r) R -> Forall (fun x => 1 < fst x) (flat_map (att t) R).
Proof.
  intros H. apply Forall_forall. intros [n b] J. apply in_flat_map in J as (r & J & A). apply att_in in A as (-> & _). rewrite Forall_forall in H. now apply H.
Qed.

Lemma taken_first b rest : Forall (fun x => 1 < fst x) rest -> (taken_for_failed ((1, b) :: rest) <-> b = true /\ Forall failed_attempt rest).
Proof.
  intros L. split.
  - intros (pre & fs & E & P & F). destruct pre as [|p pre].
    + injection E as -> ->. auto.
    + exfalso. injection E as _ E. rewrite E in L. apply Forall_app in L as [_ L]. inversion L as [|? ? L1]; subst. cbn in L1. lia.
  - intros [-> F]. exists [], rest. repeat split; auto.
Qed.

(* ---- what a worker is handed ---- *)

(* What the proofs below need to know of a run. *)
Record Facts (y : system) : Prop := {
  f_nodup : forall sl, In sl (y_slots y) -> NoDup (map rkey (reported_by sl));
  f_split : forall sl, In sl (y_slots y) -> finished (sl_runner sl) ->
    exists F R, reported_by sl = F ++ R /\ Forall (fun r => ar_run r = 1) F /\ Forall (fun r => 1 < ar_run r) R;
  f_crash : forall sl, In sl (y_slots y) -> finished (sl_runner sl) -> crashed (sl_runner sl) ->
    exists pre r, reported_by sl = pre ++ [r] /\ exists n, r = error_result (ar_run r) n (ar_work r);
  f_one : forall i j si sj ri rj, nth_error (y_slots y) i = Some si -> nth_error (y_slots y) j = Some sj ->
    In ri (reported_by si) -> In rj (reported_by sj) -> ar_work ri = ar_work rj -> i = j
}.
Lemma facts c ps y : sound c ps -> SInv c ps y -> Facts y.
Proof.
  intros SO I. constructor.
  - intros sl S. now destruct (slot_reports c ps y sl SO I S).
  - intros sl. now apply (finished_split c ps).
  - intros sl. now apply (crashed_errors c ps).
  - intros i j si sj ri rj. now apply (one_runner c ps).
Qed.

Section Received.
Variables (y : system) (mine : nat -> bool) (l : list assoc).
Hypothesis FA : Facts y.
Hypothesis FI : all_finished y.
Hypothesis ID : identified (reported y).
Hypothesis RC : received y mine l.

Lemma reported_in sl r : In sl (y_slots y) -> In r (reported_by sl) -> In r (reported y).
Proof. intros S R. unfold reported. apply in_flat_map. eauto. Qed.

Lemma handed_over a : In a l -> exists i sl, nth_error (y_slots y) i = Some sl /\ mine i = true /\ In (core a) (reported_by sl).
Proof.
  destruct RC as (from & <- & H). intros J. apply in_map_iff in J as ([i a'] & E & J). cbn [snd] in E. subst a'. specialize (H i).
  assert (K : In (core a) (map core (map snd (filter (fun x => Nat.eqb (fst x) i) from)))).
  { apply in_map, in_map_iff. exists (i, a). split; auto. apply filter_In. split; auto. apply Nat.eqb_refl. }
  rewrite H in K. destruct (nth_error (y_slots y) i) as [sl|] eqn:N; [|destruct K]. destruct (mine i) eqn:MI; [|destruct K]. exists i, sl. auto.
Qed.

Lemma all_handed i sl r : nth_error (y_slots y) i = Some sl -> mine i = true -> In r (reported_by sl) -> exists a, In a l /\ core a = r.
Proof.
  intros N MI R. destruct RC as (from & E & H). specialize (H i). rewrite N, MI in H. rewrite <- H in R. apply in_map_iff in R as (a & EA & R).
  exists a. split; auto. apply in_map_iff in R as (x & EX & R). rewrite <- E. apply filter_In in R as [R _]. rewrite <- EX. now apply in_map.
Qed.

(* the history of a case is that of the runner that has it *)
Lemma history_of i sl t : nth_error (y_slots y) i = Some sl -> mine i = true ->
  (exists r, In r (reported_by sl) /\ In t (map fst (cases r))) ->
  attempts t (flat l) = flat_map (att t) (reported_by sl).
Proof.
  intros N MI (r & R & C). rewrite attempts_att. destruct RC as (from & E & H). pose proof (H i) as Hi. rewrite N, MI in Hi. rewrite <- Hi, <- E.
  assert (OTHER : forall x, In x from -> In t (map fst (cases (core (snd x)))) -> fst x = i).
  { intros [j a] J CJ. cbn [fst snd] in *. pose proof (H j) as Hj.
    assert (K : In (core a) (map core (map snd (filter (fun x => Nat.eqb (fst x) j) from)))).
    { apply in_map, in_map_iff. exists (j, a). split; auto. apply filter_In. split; auto. apply Nat.eqb_refl. }
    rewrite Hj in K. destruct (nth_error (y_slots y) j) as [sj|] eqn:NJ; [|destruct K]. destruct (mine j); [|destruct K].
    apply (f_one y FA j i sj sl (core a) r); auto. destruct ID as (_ & I2 & _). apply (I2 _ _ t); auto.
    - apply (reported_in sj); auto. eapply nth_error_In; eauto.
    - apply (reported_in sl); auto. eapply nth_error_In; eauto. }
  clear -OTHER. induction from as [|[j a] from IH]; auto. cbn [map flat_map filter fst snd]. rewrite IH by (intros x J; apply OTHER; now right).
  destruct (Nat.eqb_spec j i) as [->|NE]; [reflexivity|]. rewrite att_nil; auto.
  intros Q. apply NE. apply (OTHER (j, a)); auto. now left.
Qed.

Lemma NoDup_rkey_slot sl : In sl (y_slots y) -> NoDup (map rkey (reported_by sl)).
Proof. exact (f_nodup y FA sl). Qed.

(* a case fails for the worker iff all its attempts failed *)
Lemma case_failed i sl r t : nth_error (y_slots y) i = Some sl -> mine i = true -> In r (reported_by sl) -> In t (map fst (cases r)) ->
  (taken_for_failed (attempts t (flat l)) <-> ~ passed (reported y) (ar_work r) t).
Proof.
  intros N MI R C. assert (S : In sl (y_slots y)) by (eapply nth_error_In; eauto).
  rewrite (history_of i sl t N MI) by eauto.
  pose proof FI as FI'. unfold all_finished in FI'. rewrite Forall_forall in FI'. destruct (f_split y FA sl S (FI' sl S)) as (F & L & E & EF & EL).
  destruct ID as (I1 & I2 & I3).
  (* the first attempt of the test is reported by the same runner *)
  destruct (I3 r t (reported_in sl r S R) C) as (r1 & R1 & W1 & RUN1 & C1).
  assert (R1S : In r1 (reported_by sl)).
  { unfold reported in R1. apply in_flat_map in R1 as (s1 & S1 & R1). apply In_nth_error in S1 as (j & J).
    assert (i = j) by (apply (f_one y FA i j sl s1 r r1); auto). subst j. rewrite N in J. injection J as <-. exact R1. }
  assert (R1F : In r1 F).
  { rewrite E in R1S. apply in_app_or in R1S as [X|X]; auto. rewrite Forall_forall in EL. specialize (EL r1 X). lia. }
  assert (IDF : forall x, In x F -> In x (reported y)) by (intros x X; apply (reported_in sl); auto; rewrite E; apply in_or_app; auto).
  assert (ONE : exists b, flat_map (att t) F = [(1, b)]).
  { apply (one_report t F (ar_work r)).
    - split; [intros x X; apply I1; auto|]. split; [intros x x' u X X'; apply I2; auto|].
      intros x u X X'. exists x. repeat split; auto. rewrite Forall_forall in EF. auto.
    - pose proof (NoDup_rkey_slot sl S) as ND. rewrite E, map_app in ND. now apply NoDup_app_l in ND.
    - exact EF.
    - exists r1. auto. }
  destruct ONE as (b & ONE). rewrite E, flat_map_app, ONE. cbn [app]. rewrite (taken_first b _ (later_att t L EL)).
  assert (ALL : forall n x, In (n, x) ((1, b) :: flat_map (att t) L) <-> exists q s, In q (reported_by sl) /\ ar_run q = n /\ In (t, s) (cases q) /\ is_fail_like s = x).
  { intros n x. change ((1, b) :: flat_map (att t) L) with ([(1, b)] ++ flat_map (att t) L). rewrite <- ONE, <- flat_map_app, <- E, in_flat_map. split.
    - intros (q & Q & A). apply att_in in A as (-> & s & A1 & A2). eauto 6.
    - intros (q & s & Q & <- & A1 & A2). exists q. split; auto. apply att_in. eauto. }
  split.
  - intros [-> FF] (q & s & Q & QW & QC & QS).
    assert (QSL : In q (reported_by sl)).
    { unfold reported in Q. apply in_flat_map in Q as (s1 & S1 & Q). apply In_nth_error in S1 as (j & J).
      assert (i = j) by (apply (f_one y FA i j sl s1 r q); auto). subst j. rewrite N in J. injection J as <-. exact Q. }
    assert (K : In (ar_run q, false) ((1, true) :: flat_map (att t) L)) by (apply ALL; eauto 6).
    destruct K as [K|K]; [discriminate|]. rewrite Forall_forall in FF. specialize (FF _ K). discriminate FF.
  - intros NP. assert (NF : forall n x, In (n, x) ((1, b) :: flat_map (att t) L) -> x = true).
    { intros n [|] J; auto. exfalso. apply NP. apply ALL in J as (q & s & Q & _ & QC & QS). exists q, s.
      split; [apply (reported_in sl); auto|]. split; [|auto]. apply (I2 q r t); auto; try (apply (reported_in sl); auto). change t with (fst (t, s)). now apply in_map. }
    split; [apply (NF 1 b); now left|]. apply Forall_forall. intros [n x] J. apply (NF n x). now right.
Qed.

Lemma filter_last {A} (p : A -> bool) (q : list A) x : forall ls, filter p ls = q ++ [x] -> exists l1 l2, ls = l1 ++ x :: l2 /\ filter p l2 = [].
Proof.
  revert q. intros q ls. revert q. induction ls as [|a ls IH]; intros q E; [destruct q; discriminate|]. cbn [filter] in E. destruct (p a).
  - destruct q as [|z q].
    + injection E as -> E. exists [], ls. auto.
    + injection E as -> E. destruct (IH q E) as (l1 & l2 & -> & X). exists (z :: l1), l2. auto.
  - destruct (IH q E) as (l1 & l2 & -> & X). exists (a :: l1), l2. auto.
Qed.

(* a crashed runner leaves a made-up result behind *)
Lemma crash_left i sl : nth_error (y_slots y) i = Some sl -> mine i = true -> crashed (sl_runner sl) -> unreplaced (flat l) <> [].
Proof.
  intros N MI C. assert (S : In sl (y_slots y)) by (eapply nth_error_In; eauto).
  pose proof FI as FI'. unfold all_finished in FI'. rewrite Forall_forall in FI'. destruct (f_crash y FA sl S (FI' sl S) C) as (pre & r & E & n & ER).
  destruct RC as (from & EL & H). pose proof (H i) as Hi. rewrite N, MI, E in Hi.
  rewrite map_map in Hi. apply map_eq_app in Hi as (q & q' & EQ & _ & Hi). destruct q' as [|x [|? ?]]; try discriminate. cbn [map] in Hi. injection Hi as Hx.
  destruct (filter_last _ q x from EQ) as (l1 & l2 & EF & NO).
  assert (AX : as_results (snd x) = [] -> False).
  { intros Q. rewrite ER in Hx. apply (f_equal ar_results) in Hx. unfold core, error_result in Hx. cbn [ar_results] in Hx. rewrite Q in Hx. discriminate. }
  assert (RX : exists z, as_results (snd x) = [z] /\ r_status z = PrivateNativeRunnerError).
  { rewrite ER in Hx. apply (f_equal ar_results) in Hx. unfold core, error_result in Hx. cbn [ar_results] in Hx.
    destruct (as_results (snd x)) as [|z [|z' zs]]; try discriminate. exists z. split; auto. cbn [map] in Hx. congruence. }
  destruct RX as (z & RX & ZS).
  intros U. set (e := {| e_run := as_run (snd x); e_work := as_work (snd x); e_result := z |}).
  assert (IN : In e (unreplaced (flat l))).
  { apply unreplaced_in. exists (flat (map snd l1)), (flat (map snd l2)). split; [|split].
    - rewrite <- EL, EF, map_app. unfold flat. rewrite flat_map_app. cbn [map flat_map]. rewrite RX. reflexivity.
    - rewrite material_spec. cbn [e e_result]. now rewrite ZS.
    - intros e' J MAT W. unfold flat in J. apply in_flat_map in J as (a & J & JE). apply in_map_iff in J as ([j a'] & EA & J). cbn [snd] in EA. subst a'.
      apply in_map_iff in JE as (z' & EZ & JE).
      assert (JF : In (j, a) from) by (rewrite EF; apply in_or_app; right; right; exact J).
      destruct (Nat.eq_dec j i) as [->|NE].
      + assert (K : In (i, a) (filter (fun x => Nat.eqb (fst x) i) l2)) by (apply filter_In; split; auto; apply Nat.eqb_refl). rewrite NO in K. destruct K.
      + pose proof (H j) as Hj.
        assert (K : In (core a) (map core (map snd (filter (fun x => Nat.eqb (fst x) j) from)))).
        { apply in_map, in_map_iff. exists (j, a). split; auto. apply filter_In. split; auto. apply Nat.eqb_refl. }
        rewrite Hj in K. destruct (nth_error (y_slots y) j) as [sj|] eqn:NJ; [|destruct K]. destruct (mine j); [|destruct K].
        apply NE. apply (f_one y FA j i sj sl (core a) r); auto.
        * rewrite E. apply in_or_app. right. now left.
        * subst e'. cbn [e e_work] in W. rewrite <- Hx. unfold core. cbn [ar_work]. exact W. }
  rewrite U in IN. destruct IN.
Qed.

Lemma replaced es e : In e es -> material e = false -> unreplaced es = [] -> exists e', In e' es /\ material e' = true /\ e_work e' = e_work e.
Proof.
  induction es as [|a es IH]; intros J MA U; [destruct J|]. cbn [unreplaced] in U. destruct (material a) eqn:MA'.
  - destruct J as [->|J]; [congruence|]. destruct (IH J MA U) as (e' & X & Y & Z). exists e'. split; [now right|auto].
  - destruct (existsb _ es) eqn:EX; [|discriminate]. destruct J as [->|J].
    + apply existsb_exists in EX as (e' & X & Y). apply andb_prop in Y as [Y1 Y2]. apply Nat.eqb_eq in Y2. exists e'. split; [now right|auto].
    + destruct (IH J MA U) as (e' & X & Y & Z). exists e'. split; [now right|auto].
Qed.

(* ---- the suite's exit code ---- *)

Lemma fold_nonempty rs : forall k k', work_forever k rs = Some k' -> k' = fold_left handle_account rs k /\ Forall (fun a => as_results a <> []) rs.
Proof.
  induction rs as [|a rs IH]; intros k k' E; cbn [work_forever] in E; [injection E as <-; auto|].
  unfold is_empty in E. destruct (as_results a) as [|r q] eqn:A; [discriminate|]. destruct (IH _ _ E) as [-> F]. split; auto. constructor; auto. rewrite A. discriminate.
Qed.

Lemma reaches_fold es k0 es0 : reaches es0 k0 -> reaches (es0 ++ es) (fold_left account_entry es k0).
Proof.
  revert k0 es0. induction es as [|e es IH]; intros k0 es0 R; [now rewrite app_nil_r|]. cbn [fold_left].
  replace (es0 ++ e :: es) with ((es0 ++ [e]) ++ es) by now rewrite <- app_assoc. apply IH. now constructor.
Qed.

Lemma suite_zero : suite_exit l (Some 0) ->
  Forall (fun a => as_results a <> []) l /\ unreplaced (flat l) = [] /\ forall t, ~ taken_for_failed (attempts t (flat l)).
Proof.
  unfold suite_exit. destruct (work_forever tracker_new l) as [k|] eqn:W; [|discriminate]. intros (o1 & o2 & P1 & P2 & E).
  destruct (fold_nonempty _ _ _ W) as [-> F]. split; auto. rewrite flat_account in *.
  pose proof (reaches_fold (flat l) tracker_new [] reach_new) as R. cbn [app] in R.
  destruct (suite_result _ o1 o2) as [k' s] eqn:Q. destruct (suite_spec _ _ _ _ _ _ R P1 P2 Q) as (X & _). cbn [snd] in E. injection E as E.
  destruct (exit_spec _ _ (reaches_ti _ _ R)) as (_ & _ & Z). apply Z. rewrite <- X, <- E. reflexivity.
Qed.
End Received.

Lemma suite_zero_iff l n : suite_exit l (Some n) ->
  Forall (fun a => as_results a <> []) l /\ (n = 0 <-> unreplaced (flat l) = [] /\ forall t, ~ taken_for_failed (attempts t (flat l))).
Proof.
  unfold suite_exit. destruct (work_forever tracker_new l) as [k|] eqn:W; [|discriminate]. intros (o1 & o2 & P1 & P2 & E).
  destruct (fold_nonempty _ _ _ W) as [-> F]. split; auto. rewrite flat_account in *.
  pose proof (reaches_fold (flat l) tracker_new [] reach_new) as R. cbn [app] in R.
  destruct (suite_result _ o1 o2) as [k' s] eqn:Q. destruct (suite_spec _ _ _ _ _ _ R P1 P2 Q) as (X & _). cbn [snd] in E. injection E as E.
  destruct (exit_spec _ _ (reaches_ti _ _ R)) as (_ & _ & Z). rewrite E, X. exact Z.
Qed.

Lemma work_forever_some rs : Forall (fun a => as_results a <> []) rs -> forall k, exists k', work_forever k rs = Some k'.
Proof.
  induction 1 as [|a rs A F IH]; intros k; cbn [work_forever]; eauto. unfold is_empty. destruct (as_results a); [congruence|]. apply IH.
Qed.

Lemma suite_some l code : Forall (fun a => as_results a <> []) l -> suite_exit l code -> exists n, code = Some n.
Proof.
  intros F. unfold suite_exit. destruct (work_forever_some l F tracker_new) as (k & ->). intros (o1 & o2 & _ & _ & E). eauto.
Qed.

Lemma unreplaced_genuine es : Forall (fun e => material e = true) es -> unreplaced es = [].
Proof. induction 1 as [|e es M F IH]; cbn [unreplaced]; auto. now rewrite M. Qed.

Lemma taken_some h : taken_for_failed h -> exists n b, In (n, b) h.
Proof. intros (pre & fs & -> & _). exists 1, true. apply in_elt. Qed.

Lemma flat_in l e : In e (flat l) -> exists a r, In a l /\ In r (as_results a) /\ e = {| e_run := as_run a; e_work := as_work a; e_result := r |}.
Proof. unfold flat. rewrite in_flat_map. intros (a & A & J). apply in_map_iff in J as (r & <- & R). eauto 6. Qed.
Lemma in_flat l a r : In a l -> In r (as_results a) -> In {| e_run := as_run a; e_work := as_work a; e_result := r |} (flat l).
Proof. intros A R. unfold flat. apply in_flat_map. exists a. split; auto. apply in_map_iff. eauto. Qed.

Lemma core_cases a r : In r (as_results a) -> made_up (r_status r) = false -> In (r_id r, r_status r) (cases (core a)).
Proof.
  intros R M. unfold cases, core. cbn [ar_results]. apply filter_In. cbn [snd]. rewrite M. split; auto. apply in_map_iff. eauto.
Qed.

Section Suite.
Variables (y : system) (mine : nat -> bool) (l : list assoc).
Hypothesis FA : Facts y.
Hypothesis FI : all_finished y.
Hypothesis ID : identified (reported y).
Hypothesis RC : received y mine l.

Lemma suite_ok : suite_exit l (Some 0) ->
  forall i sl, nth_error (y_slots y) i = Some sl -> mine i = true ->
    ~ crashed (sl_runner sl) /\
    forall r, In r (reported_by sl) ->
      (exists t, case_of (reported y) (ar_work r) t) /\
      forall t, case_of (reported y) (ar_work r) t -> passed (reported y) (ar_work r) t.
Proof.
  intros Z i sl N MI. destruct (suite_zero l Z) as (NE & U & T). assert (S : In sl (y_slots y)) by (eapply nth_error_In; eauto). split.
  - intros C. now apply (crash_left y mine l FA FI RC i sl).
  - intros r R. split.
    + destruct (all_handed y mine l RC i sl r N MI R) as (a & A & EA). rewrite Forall_forall in NE. specialize (NE a A).
      destruct (as_results a) as [|z zs] eqn:Q; [congruence|]. assert (ZI : In z (as_results a)) by (rewrite Q; now left).
      pose proof (in_flat l a z A ZI) as E. set (e := {| e_run := as_run a; e_work := as_work a; e_result := z |}) in *.
      assert (G : exists e', In e' (flat l) /\ material e' = true /\ e_work e' = e_work e).
      { destruct (material e) eqn:M; [exists e; auto|]. now apply replaced. }
      destruct G as (e' & E' & M' & W'). apply flat_in in E' as (a' & z' & A' & Z' & ->). cbn [e_work e] in W'.
      destruct (handed_over y mine l RC a' A') as (j & sj & NJ & _ & RJ). exists (r_id z'), (core a'). split; [|split].
      * apply (reported_in y sj); auto. eapply nth_error_In; eauto.
      * rewrite <- EA. unfold core. cbn [ar_work]. exact W'.
      * change (r_id z') with (fst (r_id z', r_status z')). apply in_map, core_cases; auto. rewrite material_spec in M'. cbn [e_result] in M'. now destruct (made_up (r_status z')).
    + intros t (q & Q & QW & QC).
      assert (QS : In q (reported_by sl)).
      { unfold reported in Q. apply in_flat_map in Q as (s1 & S1 & Q). apply In_nth_error in S1 as (j & J).
        assert (i = j) by (apply (f_one y FA i j sl s1 r q); auto). subst j. rewrite N in J. injection J as <-. exact Q. }
      destruct (case_failed y mine l FA FI ID RC i sl q t N MI QS QC) as [_ D]. rewrite <- QW.
      (* decidable: passed is a search through finitely many reports *)
      assert (DEC : passed (reported y) (ar_work q) t \/ ~ passed (reported y) (ar_work q) t).
      { set (f := fun r0 : aresult => Nat.eqb (ar_work r0) (ar_work q) && existsb (fun x => Nat.eqb (fst x) t && negb (is_fail_like (snd x))) (cases r0)).
        destruct (existsb f (reported y)) eqn:EX.
        - left. apply existsb_exists in EX as (r0 & R0 & F0). unfold f in F0. apply andb_prop in F0 as [F1 F2]. apply Nat.eqb_eq in F1.
          apply existsb_exists in F2 as ([t0 s0] & C0 & F2). cbn [fst snd] in F2. apply andb_prop in F2 as [F2 F3]. apply Nat.eqb_eq in F2. subst t0.
          exists r0, s0. repeat split; auto. now destruct (is_fail_like s0).
        - right. intros (r0 & s0 & R0 & W0 & C0 & B0). assert (X : existsb f (reported y) = true); [|congruence].
          apply existsb_exists. exists r0. split; auto. unfold f. rewrite W0, Nat.eqb_refl. cbn [andb]. apply existsb_exists. exists (t, s0). split; auto.
          cbn [fst snd]. now rewrite Nat.eqb_refl, B0. }
      destruct DEC as [P|P]; auto. exfalso. exact (T t (D P)).
Qed.

Lemma suite_fails i sl r t : nth_error (y_slots y) i = Some sl -> mine i = true -> In r (reported_by sl) -> In t (map fst (cases r)) ->
  ~ passed (reported y) (ar_work r) t -> ~ suite_exit l (Some 0).
Proof.
  intros N MI R C NP Z. destruct (suite_ok Z i sl N MI) as [_ K]. destruct (K r R) as [_ P]. apply NP, P. exists r. split; auto.
  apply (reported_in y sl); auto. eapply nth_error_In; eauto.
Qed.

Lemma suite_passes code : 
  (forall i sl r, nth_error (y_slots y) i = Some sl -> mine i = true -> In r (reported_by sl) ->
     ar_results r <> [] /\ Forall (fun x => made_up (snd x) = false) (ar_results r) /\
     forall t, In t (map fst (cases r)) -> passed (reported y) (ar_work r) t) ->
  suite_exit l code -> code = Some 0.
Proof.
  intros H Z.
  assert (NE : Forall (fun a => as_results a <> []) l).
  { apply Forall_forall. intros a A Q. destruct (handed_over y mine l RC a A) as (i & sl & N & MI & R). destruct (H i sl _ N MI R) as (X & _). apply X. unfold core. cbn [ar_results]. now rewrite Q. }
  assert (MAT : Forall (fun e => material e = true) (flat l)).
  { apply Forall_forall. intros e E. apply flat_in in E as (a & z & A & ZI & ->). destruct (handed_over y mine l RC a A) as (i & sl & N & MI & R). destruct (H i sl _ N MI R) as (_ & X & _).
    rewrite material_spec. cbn [e_result]. rewrite Forall_forall in X. specialize (X (r_id z, r_status z)). cbn [snd] in X. rewrite X; auto. unfold core. cbn [ar_results]. apply in_map_iff. eauto. }
  destruct (suite_some l code NE Z) as (n & ->). destruct (suite_zero_iff l n Z) as [_ E]. f_equal. apply E. split; [now apply unreplaced_genuine|].
  intros t TF. destruct (taken_some _ TF) as (m & b & J). rewrite attempts_att in J. apply in_flat_map in J as (r & J & A). apply att_in in A as (_ & s & CA & _).
  apply in_map_iff in J as (a & <- & J). destruct (handed_over y mine l RC a J) as (i & sl & N & MI & R). 
  assert (CT : In t (map fst (cases (core a)))) by (change t with (fst (t, s)); now apply in_map).
  destruct (H i sl _ N MI R) as (_ & _ & P). specialize (P t CT).
  now apply (case_failed y mine l FA FI ID RC i sl (core a) t N MI R CT) in TF.
Qed.
End Suite.

(* ---- processes ---- *)

Lemma decisive_unique es1 e1 l1 es2 e2 l2 : WorkerSpec.undecided es1 -> WorkerSpec.undecided es2 ->
  WorkerSpec.decisive e1 = true -> WorkerSpec.decisive e2 = true -> es1 ++ e1 :: l1 = es2 ++ e2 :: l2 -> e1 = e2 /\ l1 = l2.
Proof.
  revert es2. induction es1 as [|x es1 IH]; intros [|z es2] U1 U2 D1 D2 E; cbn [app] in E.
  - now injection E.
  - injection E as -> _. inversion U2; congruence.
  - injection E as <- _. inversion U1; congruence.
  - injection E as _ E. inversion U1; inversion U2; subst. eapply IH; eauto.
Qed.
