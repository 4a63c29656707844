(* The count of active runs. *)
From Verif Require Import Base JobQueueModel WorkerSetModel RunModel RunSpec RunProofs RunInv RunNext RunLemmas.
From Coq Require Import ZArith.
Local Open Scope Z_scope.

Section Count.
Context {T M : Type}.
Implicit Types (st : state T M) (r : run_id) (s : run_state T M).

Definition actZ (m : list (run_id * run_state T M)) : Z :=
  Z.of_nat (length (filter (fun p => is_active_state (snd p)) m)).
Definition act1 (o : option (run_state T M)) : Z :=
  match o with Some s => if is_active_state s then 1 else 0 | None => 0 end.

Lemma actZ_put r s m : actZ (put r s m) = actZ m + act1 (Some s) - act1 (get r m).
Proof.
  unfold actZ, act1. induction m as [|[r0 s0] m IH]; simpl.
  - destruct (is_active_state s); simpl; lia.
  - destruct (Nat.eqb_spec r0 r); simpl.
    + destruct (is_active_state s), (is_active_state s0); cbn [length]; rewrite ?Nat2Z.inj_succ; lia.
    + destruct (is_active_state s0); cbn [length]; rewrite ?Nat2Z.inj_succ; lia.
Qed.

Definition rc st (ev : event T M) : Z :=
  match ev with
  | ECancel r _ => match phase_of st r with Some PhCancelled => 1 | _ => 0 end
  | _ => 0
  end.

Lemma repeated_cons st ev es :
  Z.of_nat (repeated_cancels st (ev :: es)) = rc st ev + Z.of_nat (repeated_cancels (step st ev) es).
Proof.
  simpl. unfold rc. destruct ev; try reflexivity.
  destruct (phase_of st r) as [[]|]; try reflexivity. rewrite Nat2Z.inj_add. reflexivity.
Qed.

Lemma active_step st ev : reachable st ->
  exists d, actZ (s_runs (step st ev)) - rc st ev = actZ (s_runs st) + d /\
     ((d = 0 /\ s_active (step st ev) = s_active st) \/ s_active (step st ev) = u64 (s_active st + d)).
Proof.
  intros HR.
  assert (Hrc : forall r e, rc st (ECancel r e) = match phase_of st r with Some PhCancelled => 1 | _ => 0 end) by reflexivity.
  assert (Hsame : forall st', rc st ev = 0 -> s_runs st' = s_runs st -> s_active st' = s_active st ->
     exists d, actZ (s_runs st') - rc st ev = actZ (s_runs st) + d /\
     ((d = 0 /\ s_active st' = s_active st) \/ s_active st' = u64 (s_active st + d))).
  { intros st' H0 H1 H2. exists 0. rewrite H0, H1. split; [lia|auto]. }
  assert (Hset : forall st' r s d, s_runs st' = put r s (s_runs st) -> s_active st' = u64 (s_active st + d) ->
     act1 (Some s) - act1 (get r (s_runs st)) - rc st ev = d ->
     exists d, actZ (s_runs st') - rc st ev = actZ (s_runs st) + d /\
     ((d = 0 /\ s_active st' = s_active st) \/ s_active st' = u64 (s_active st + d))).
  { intros st' r s d H1 H2 H3. exists d. rewrite H1, actZ_put. split; [lia|auto]. }
  unfold step; destruct ev; unfold exclusive; try (apply Hsame; reflexivity).
  - destruct (Nat.eqb (fp_batch p) 0); apply Hsame; reflexivity.
  - destruct (nth_error (s_reqs st) k) as [[p [] |? ? ?|? ? ?]|] eqn:Eq; try (apply Hsame; reflexivity).
    destruct a as [sv| | |]; try (apply Hsame; reflexivity);
      destruct (get (fp_run p) (s_runs st)) eqn:Eg; try (apply Hsame; reflexivity).
    + eapply Hset; [reflexivity|reflexivity|]. rewrite Eg. reflexivity.
    + eapply Hset; [reflexivity|reflexivity|]. rewrite Eg. reflexivity.
    + eapply Hset; [reflexivity|reflexivity|]. rewrite Eg. reflexivity.
  - destruct (nth_error (s_reqs st) k) as [[p [] |? ? ?|? ? ?]|] eqn:Eq; try (apply Hsame; reflexivity).
    destruct (get (fp_run p) (s_runs st)) as [s|] eqn:Eg; [|apply Hsame; reflexivity].
    destruct (find_lookup now p s) as [s' a] eqn:Ef.
    eapply Hset; [reflexivity|reflexivity|]. rewrite Eg. op_cases; reflexivity.
  - destruct (get r (s_runs st)) as [s|] eqn:Eg; [|apply Hsame; reflexivity].
    destruct (busy st r) eqn:Eb; [apply Hsame; reflexivity|].
    destruct flat as [|x flat].
    + destruct (mark_empty s) as [[s' d] ok] eqn:Ef.
      eapply Hset; [reflexivity|reflexivity|]. rewrite Eg. op_cases; reflexivity.
    + destruct (add_manifest (x :: flat) meta s) as [s' ok] eqn:Ef.
      eapply Hset; [reflexivity|reflexivity|]. rewrite Eg. op_cases; reflexivity.
  - destruct (get r (s_runs st)) as [s|] eqn:Eg; [|apply Hsame; reflexivity].
    destruct (busy st r) eqn:Eb; [apply Hsame; reflexivity|].
    destruct (mark_failed s) as [s' d] eqn:Ef.
    eapply Hset; [reflexivity|reflexivity|]. rewrite Eg. op_cases; reflexivity.
  - destruct (get r (s_runs st)) as [s|] eqn:Eg; [|apply Hsame; reflexivity].
    destruct (init_metadata e s) as [s' a] eqn:Ef.
    eapply Hset; [reflexivity|reflexivity|]. rewrite Eg. op_cases; reflexivity.
  - destruct (get r (s_runs st)) as [[conns b sg h|[c js] m b active h|ec m seen mp h old|rr old]|] eqn:Eg;
      try (apply Hsame; reflexivity);
      (eapply Hset; [reflexivity|reflexivity|]; rewrite Eg; reflexivity).
  - destruct (nth_error (s_reqs st) k) as [[|r0 e [j|j ts|j]|]|] eqn:Eq; try (apply Hsame; reflexivity).
    destruct (get r0 (s_runs st)) as [[| [c js] m b active h| |]|] eqn:Eg; try (apply Hsame; reflexivity).
    eapply Hset; [reflexivity|reflexivity|]; rewrite Eg; reflexivity.
  - destruct (nth_error (s_reqs st) k) as [[|r0 e [j|j ts|j]|]|] eqn:Eq; try (apply Hsame; reflexivity).
    + destruct (get r0 (s_runs st)) as [[| [c js] m b active h| |]|] eqn:Eg; try (apply Hsame; reflexivity).
      destruct (nth_error (st_threads js) j) as [t|] eqn:Et; [|apply Hsame; reflexivity].
      destruct (status_of c t) as [[]|] eqn:Es; apply Hsame; reflexivity.
    + destruct (get r0 (s_runs st)) as [s|] eqn:Eg; [|apply Hsame; reflexivity].
      destruct (busy st r0) eqn:Eb; [apply Hsame; reflexivity|].
      destruct (try_mark_end s) as [[s' d] p] eqn:Ef.
      eapply Hset; [reflexivity|reflexivity|]. rewrite Eg. op_cases; reflexivity.
  - destruct (get r (s_runs st)) as [s|] eqn:Eg; [|apply Hsame; reflexivity].
    destruct (retry_manifest e s) as [s' a] eqn:Ef.
    eapply Hset; [reflexivity|reflexivity|]. rewrite Eg. op_cases; reflexivity.
  - destruct (get r (s_runs st)) as [s|] eqn:Eg; [|apply Hsame; reflexivity].
    eapply Hset; [reflexivity|reflexivity|]. rewrite Eg. destruct s; reflexivity.
  - destruct (get r (s_runs st)) as [s|] eqn:Eg.
    2:{ apply Hsame; try reflexivity. rewrite Hrc. unfold phase_of. now rewrite Eg. }
    destruct (busy st r) eqn:Eb.
    + apply Hsame; try reflexivity. rewrite Hrc. unfold phase_of. rewrite Eg. simpl.
      apply busy_true in Eb as (k & e' & j & Hk).
      destruct (n_thr _ (i_n _ (reachable_inv _ HR)) _ _ _ _ _ Hk eq_refl) as (c & js & t & _ & _ & _ & b & Ho).
      unfold open in Ho. rewrite Eg in Ho. destruct s; try discriminate. reflexivity.
    + destruct (mark_cancelled e CRUser s) as [s' d] eqn:Ef.
      eapply Hset; [reflexivity|reflexivity|]. rewrite Hrc. unfold phase_of. rewrite Eg. op_cases; reflexivity.
  - destruct (get r (s_runs st)) as [[| |ec m seen [b|] h old|]|] eqn:Eg; try (apply Hsame; reflexivity).
    eapply Hset; [reflexivity|reflexivity|]; rewrite Eg; reflexivity.
  - destruct (nth_error (s_timers st) i) as [[r last]|]; [|apply Hsame; reflexivity].
    destruct (get r (s_runs st)) as [s|]; [|apply Hsame; reflexivity].
    destruct (query_progress last s); apply Hsame; reflexivity.
  - destruct (nth_error (s_reqs st) k) as [[| |r last []]|] eqn:Eq; try (apply Hsame; reflexivity).
    destruct (get r (s_runs st)) as [s|] eqn:Eg; [|apply Hsame; reflexivity].
    destruct (busy st r); [apply Hsame; reflexivity|].
    destruct (is_cancel (query_progress last s)) eqn:Ec.
    + eapply Hset; [reflexivity|reflexivity|]. rewrite Eg. destruct s; simpl in *; try discriminate; reflexivity.
    + destruct (query_progress last s); apply Hsame; reflexivity.
Qed.

Lemma u64_add a b : u64 (u64 a + b) = u64 (a + b).
Proof. unfold u64. now rewrite Zplus_mod_idemp_l. Qed.
Lemma u64_idem a : u64 (u64 a) = u64 a.
Proof. unfold u64. now rewrite Zmod_mod. Qed.

Lemma active_count es :
  s_active (run step (@init_state T M) es) =
  u64 (Z.of_nat (active_runs (run step init_state es)) - Z.of_nat (repeated_cancels (@init_state T M) es)).
Proof.
  assert (H : forall es st n, reachable st -> s_active st = u64 (actZ (s_runs st) - n) ->
     s_active (run step st es) = u64 (actZ (s_runs (run step st es)) - (n + Z.of_nat (repeated_cancels st es)))).
  { clear es. induction es as [|ev es IH]; intros st n HR H.
    - simpl. rewrite Z.add_0_r. exact H.
    - rewrite run_cons, repeated_cons.
      rewrite (IH (step st ev) (n + rc st ev)); [f_equal; lia|now apply RunLemmas.reachable_step|].
      destruct (active_step st ev HR) as (d & H1 & [[-> H2]|H2]); rewrite H2, H.
      + f_equal. lia.
      + rewrite u64_add. f_equal. lia. }
  specialize (H es init_state 0 reachable_init eq_refl). rewrite H. unfold actZ, active_runs. f_equal.
Qed.

Lemma active_range st : reachable st -> u64 (s_active st) = s_active st.
Proof. intros [es ->]. rewrite active_count. apply u64_idem. Qed.

Lemma active_exact es : repeated_cancels (@init_state T M) es = 0%nat ->
  Z.of_nat (active_runs (run step (@init_state T M) es)) < 2 ^ 64 ->
  s_active (run step init_state es) = Z.of_nat (active_runs (run step (@init_state T M) es)).
Proof.
  intros H0 H1. rewrite active_count, H0. unfold u64. simpl Z.of_nat at 2. rewrite Z.sub_0_r.
  apply Z.mod_small. lia.
Qed.

End Count.
