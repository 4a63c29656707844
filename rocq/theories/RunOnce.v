(* Every worker that connects is answered once. *)
From Verif Require Import Base JobQueueModel WorkerSetModel RunModel RunSpec.

Section Answers.
Context {T M : Type}.
Context (f : find_params -> bool).
Notation state := (state T M).

Definition answers_it (o : obs T M) : bool := match o with OAssigned p _ => f p | _ => false end.
Definition open_find (q : request T) : bool := match q with QFind p FAnswered => false | QFind p _ => f p | _ => false end.
Definition asks_it (e : event T M) : bool := match e with EFind p => f p && negb (Nat.eqb (fp_batch p) 0) | _ => false end.
Definition bal (st : state) : nat := length (filter answers_it (s_log st)) + length (filter open_find (s_reqs st)).
Definition b2n (b : bool) : nat := if b then 1 else 0.

Lemma filter_upd {A} (g : A -> bool) (l : list A) k q q' : nth_error l k = Some q ->
  length (filter g (upd k q' l)) + b2n (g q) = length (filter g l) + b2n (g q').
Proof.
  revert k. induction l as [|a l IH]; intros [|k] E; cbn in *; try discriminate.
  - injection E as ->. destruct (g q), (g q'); cbn; lia.
  - specialize (IH k E). destruct (g a); cbn; lia.
Qed.

Lemma say_bal (st : state) os : bal (say st os) = bal st + length (filter answers_it os).
Proof. unfold bal. cbn. rewrite filter_app, app_length. lia. Qed.
Lemma set_run_bal (st : state) r s d os : bal (set_run st r s d os) = bal st + length (filter answers_it os).
Proof. unfold bal. cbn. rewrite filter_app, app_length. lia. Qed.
Lemma add_req_bal (st : state) q : bal (add_req st q) = bal st + b2n (open_find q).
Proof. unfold bal. cbn. rewrite filter_app, app_length. cbn. destruct (open_find q); cbn; lia. Qed.
Lemma add_timer_bal (st : state) t : bal (add_timer st t) = bal st.
Proof. reflexivity. Qed.
Lemma set_req_bal (st : state) k q q' : nth_error (s_reqs st) k = Some q -> bal (set_req st k q') + b2n (open_find q) = bal st + b2n (open_find q').
Proof. intros E. unfold bal. cbn. pose proof (filter_upd open_find (s_reqs st) k q q' E). lia. Qed.
Lemma set_req_bal0 (st : state) k q q' : nth_error (s_reqs st) k = Some q -> open_find q = open_find q' -> bal (set_req st k q') = bal st.
Proof. intros E O. pose proof (set_req_bal st k q q' E). rewrite O in H. lia. Qed.
Lemma exclusive_bal (st : state) r g : (forall s, get r (s_runs st) = Some s -> bal (g s) = bal st) -> bal (exclusive st r g) = bal st.
Proof. intros H. unfold exclusive. destruct (get r (s_runs st)) eqn:G; [destruct (busy st r); auto|]. rewrite say_bal. cbn. lia. Qed.

Lemma step_bal (st : state) e : bal (step st e) = bal st + b2n (asks_it e).
Proof.
  destruct e; cbn [step asks_it b2n].
  - destruct (Nat.eqb (fp_batch p) 0); [rewrite andb_false_r; cbn; lia|]. rewrite andb_true_r, add_req_bal. cbn. destruct (get _ _); reflexivity.
  - rewrite Nat.add_0_r. destruct (nth_error (s_reqs st) k) as [[p []| |]|] eqn:E; auto. destruct a.
    + destruct (get (fp_run p) (s_runs st)); [now apply (set_req_bal0 st k _ _ E)|].
      pose proof (set_req_bal (set_run st (fp_run p) (loaded_run s) 0 []) k _ (QFind p FLookup) E) as H. rewrite set_run_bal in H. cbn in *. lia.
    + assert (G : bal match get (fp_run p) (s_runs st) with Some _ => set_req st k (QFind p FLookup)
          | None => add_timer (set_req (set_run st (fp_run p) (fresh_run now p) 1 [OAssigned p (AssignedRun (Fresh true) false)]) k (QFind p FAnswered)) (fp_run p, 0) end = bal st);
        [|exact G]. destruct (get (fp_run p) (s_runs st)); [now apply (set_req_bal0 st k _ _ E)|]. rewrite add_timer_bal.
      pose proof (set_req_bal (set_run st (fp_run p) (fresh_run now p) 1 [OAssigned p (AssignedRun (Fresh true) false)]) k _ (QFind p FAnswered) E) as H. rewrite set_run_bal in H. cbn in *. destruct (f p); cbn in *; lia.
    + destruct (get (fp_run p) (s_runs st)); [now apply (set_req_bal0 st k _ _ E)|]. rewrite add_timer_bal.
      pose proof (set_req_bal (set_run st (fp_run p) (fresh_run now p) 1 [OAssigned p (AssignedRun (Fresh true) false)]) k _ (QFind p FAnswered) E) as H. rewrite set_run_bal in H. cbn in *. destruct (f p); cbn in *; lia.
    + pose proof (set_req_bal (say st [OAssigned p FatalError]) k _ (QFind p FAnswered) E) as H. rewrite say_bal in H. cbn in *. destruct (f p); cbn in *; lia.
  - rewrite Nat.add_0_r. destruct (nth_error (s_reqs st) k) as [[p []| |]|] eqn:E; auto. destruct (get (fp_run p) (s_runs st)) as [s|].
    + destruct (find_lookup now p s) as [s' a].
      pose proof (set_req_bal (set_run st (fp_run p) s' 0 [OAssigned p a]) k _ (QFind p FAnswered) E) as H. rewrite set_run_bal in H. cbn in *. destruct (f p); cbn in *; lia.
    + pose proof (set_req_bal (say st [OAssigned p RunUnknown]) k _ (QFind p FAnswered) E) as H. rewrite say_bal in H. cbn in *. destruct (f p); cbn in *; lia.
  - rewrite Nat.add_0_r. apply exclusive_bal. intros s _. destruct flat; [destruct (mark_empty s) as [[? ?] ?]|destruct (add_manifest _ _ s)]; rewrite set_run_bal; cbn; lia.
  - rewrite Nat.add_0_r. apply exclusive_bal. intros s _. destruct (mark_failed s). rewrite set_run_bal; cbn; lia.
  - destruct (get r (s_runs st)); [destruct (init_metadata e r0)|]; rewrite ?set_run_bal, ?say_bal; cbn; lia.
  - destruct (get r (s_runs st)) as [[|[c js]| |]|]; rewrite ?add_req_bal, ?set_run_bal, ?say_bal; cbn; lia.
  - rewrite Nat.add_0_r. destruct (nth_error (s_reqs st) k) as [[|? ? []|]|]; auto. destruct (get r (s_runs st)) as [[|[c js]| |]|]; auto. rewrite set_run_bal; cbn; lia.
  - rewrite Nat.add_0_r. destruct (nth_error (s_reqs st) k) as [[|r e []|]|] eqn:E; auto.
    + destruct (get r (s_runs st)) as [[|[c js]| |]|]; auto. destruct (nth_error (st_threads js) j); auto. destruct (status_of c t) as [[]|]; auto.
      * rewrite (set_req_bal0 (say st [OWork k r e (bundle c t) false None]) k _ (QNext r e (NAnswered (Some j))) E eq_refl), say_bal. cbn. lia.
      * now apply (set_req_bal0 st k _ _ E).
      * now apply (set_req_bal0 st k _ _ E).
    + apply exclusive_bal. intros s _. destruct (try_mark_end s) as [[s' d] p].
      rewrite (set_req_bal0 (set_run st r s' d [OWork k r e tests true p]) k _ (QNext r e (NAnswered (Some j))) E eq_refl), set_run_bal. cbn. lia.
  - destruct (get r (s_runs st)); [destruct (retry_manifest e r0)|]; rewrite ?set_run_bal, ?say_bal; cbn; lia.
  - rewrite Nat.add_0_r. destruct (get r (s_runs st)); auto. rewrite set_run_bal; cbn; lia.
  - rewrite Nat.add_0_r. apply exclusive_bal. intros s _. destruct (mark_cancelled e CRUser s). rewrite set_run_bal; cbn; lia.
  - rewrite Nat.add_0_r. destruct (get r (s_runs st)) as [[| |? ? ? []|]|]; auto. rewrite set_run_bal; cbn; lia.
  - rewrite Nat.add_0_r. destruct (nth_error (s_timers st) i) as [[r l]|]; auto.
    set (st0 := mk st (s_runs st) (s_active st) (remove_at i (s_timers st)) (s_reqs st) []).
    assert (S0 : bal st0 = bal st) by (unfold bal, st0; cbn; now rewrite app_nil_r).
    destruct (get r (s_runs st)) as [s|]; [|rewrite say_bal, S0; cbn; lia]. destruct (query_progress l s); rewrite ?add_timer_bal, ?say_bal, ?add_req_bal, S0; cbn; lia.
  - rewrite Nat.add_0_r. destruct (nth_error (s_reqs st) k) as [[| |r l []]|] eqn:E; auto. apply exclusive_bal. intros s _.
    pose proof (set_req_bal0 st k _ (QTimeout r l true) E eq_refl) as S0. destruct (query_progress l s); cbn [is_cancel].
    + destruct (cancel_help _ s). rewrite set_run_bal, S0; cbn; lia.
    + destruct (cancel_help _ s). rewrite set_run_bal, S0; cbn; lia.
    + rewrite say_bal, S0. cbn. lia.
    + rewrite add_timer_bal, say_bal, S0. cbn. lia.
  - rewrite say_bal. cbn. lia.
  - rewrite say_bal. cbn. lia.
Qed.

Lemma run_bal es : forall st : state, bal (run step st es) = bal st + length (filter asks_it es).
Proof.
  induction es as [|e es IH]; intros st; [cbn; lia|]. change (run step st (e :: es)) with (run step (step st e) es). rewrite IH, step_bal.
  cbn [filter]. destruct (asks_it e); cbn [b2n length]; lia.
Qed.
End Answers.
