From Verif Require Import Base ConnModel ConnSpec.

Definition taken (s : cstate) : list nat := flat_map p_tests (c_pulls s).
Record CInv (m : list nat) (s : cstate) : Prop := {
  ci_split : m = taken s ++ c_rem s;
  ci_done : c_done s = true -> c_rem s = [];
  ci_done' : c_pulls s <> [] -> c_done s = false -> c_rem s <> [];
  ci_stored : c_stored s <= 1 /\ (c_done s = false -> c_stored s = 0);
  ci_eow : forall p, In p (c_pulls s) -> p_eow p = true -> c_done s = true;
  ci_plan : c_done s = true -> c_stored s = 0 -> exists p, In p (c_pulls s) /\ p_eow p = true /\ p_out p = WriteFailed;
  ci_reach : Forall (fun p => p_out p <> Unreached) (c_pulls s)
}.

Lemma serve_inv m batch s k o : o <> Unreached -> CInv m s -> CInv m (serve batch s k o).
Proof.
  intros RO [S D D' [ST ST'] E PL RE]. unfold serve. destruct (c_done s) eqn:DN.
  - specialize (D eq_refl). constructor; simpl; auto.
    + rewrite S. unfold taken. simpl. rewrite flat_map_app. simpl. rewrite !app_nil_r. reflexivity.
    + discriminate.
    + split; [lia|discriminate].
    + intros _ K. destruct PL as (p & I & P); auto; [lia|]. exists p. split; auto. apply in_or_app; auto.
    + apply Forall_app. auto.
  - assert (TK : forall x, taken {| c_rem := skipn batch (c_rem s); c_done := x; c_stored := c_stored s; c_pulls := c_pulls s |} = taken s) by reflexivity.
    destruct (skipn batch (c_rem s)) as [|a l] eqn:R; simpl.
    + constructor; simpl; auto.
      * unfold taken. simpl. rewrite flat_map_app. simpl. rewrite !app_nil_r.
        rewrite S at 1. rewrite <- (firstn_skipn batch (c_rem s)) at 1. rewrite R, app_nil_r. reflexivity.
      * discriminate.
      * split; [|discriminate]. rewrite ST' by auto. destruct o; lia.
      * intros _ K. exists {| p_worker := k; p_tests := firstn batch (c_rem s); p_eow := true; p_out := o |}.
        split; [apply in_or_app; simpl; auto|]. split; auto. destruct o; simpl in *; auto; lia.
      * apply Forall_app. auto.
    + constructor; simpl; auto.
      * unfold taken. simpl. rewrite flat_map_app. simpl. rewrite app_nil_r.
        rewrite S at 1. rewrite <- (firstn_skipn batch (c_rem s)) at 1. rewrite R, app_assoc. reflexivity.
      * discriminate.
      * intros _ _. discriminate.
      * split; [lia|]. intros _. rewrite ST' by auto. lia.
      * intros p I P. apply in_app_or in I as [I|[<-|[]]]; eauto.
      * discriminate.
      * apply Forall_app. auto.
Qed.

Lemma attempt_inv m batch s k o : CInv m s -> CInv m (attempt_once batch s k o).
Proof. intros I. unfold attempt_once. destruct o; simpl; auto; apply serve_inv; auto; discriminate. Qed.

Lemma call_inv m batch k : forall n s os, CInv m s -> CInv m (fst (call_loop n batch s k os)).
Proof.
  induction n as [|n IH]; intros s os I; simpl; auto. destruct os as [|o os]; auto.
  pose proof (attempt_inv m batch s k o I) as I'. destruct o; auto; apply IH; auto.
Qed.

Lemma cinit_inv m : CInv m (cinit m).
Proof. constructor; simpl; auto; try discriminate; try tauto; intros; contradiction. Qed.

Lemma reach_cinv m batch cs : CInv m (run (cstep batch) (cinit m) cs).
Proof. apply run_invariant; [|apply cinit_inv]. intros s c I. apply call_inv; auto. Qed.

(* which pulls a call adds *)
Lemma serve_pulls batch s k o : exists ts e, c_pulls (serve batch s k o) = c_pulls s ++ [{| p_worker := k; p_tests := ts; p_eow := e; p_out := o |}].
Proof. unfold serve. simpl. eauto. Qed.

Lemma call_pulls batch k : forall n s os, exists ps, c_pulls (fst (call_loop n batch s k os)) = c_pulls s ++ ps /\
  length ps <= n /\ Forall (fun p => p_worker p = k /\ In (p_out p) os) ps.
Proof.
  induction n as [|n IH]; intros s os; simpl; [exists []; rewrite app_nil_r; auto|].
  destruct os as [|o os]; [exists []; simpl; rewrite app_nil_r; repeat split; auto; lia|].
  assert (A : exists ps0, c_pulls (attempt_once batch s k o) = c_pulls s ++ ps0 /\ length ps0 <= 1 /\ Forall (fun p => p_worker p = k /\ In (p_out p) (o :: os)) ps0).
  { unfold attempt_once. destruct (reaches o).
    - destruct (serve_pulls batch s k o) as (ts & e & E). eexists. split; [exact E|]. split; [simpl; lia|]. repeat constructor.
    - exists []. rewrite app_nil_r. repeat split; auto. }
  destruct A as (ps0 & A1 & A2 & A3).
  assert (B : exists ps, c_pulls (fst (call_loop n batch (attempt_once batch s k o) k os)) = c_pulls s ++ ps /\ length ps <= S n /\ Forall (fun p => p_worker p = k /\ In (p_out p) (o :: os)) ps).
  { destruct (IH (attempt_once batch s k o) os) as (ps & B1 & B2 & B3). exists (ps0 ++ ps). rewrite B1, A1, app_assoc, app_length. repeat split; auto; [lia|].
    apply Forall_app. split; auto. eapply Forall_impl; [|exact B3]. simpl. tauto. }
  destruct o; auto. simpl. exists ps0. repeat split; auto. lia.
Qed.

Lemma all_delivered (ps : list pull) : Forall (fun p => p_out p = Delivered) ps -> filter delivered ps = ps.
Proof. induction 1 as [|p ps H _ IH]; simpl; auto. unfold delivered at 1. rewrite H. now f_equal. Qed.

Lemma run_delivered batch m : forall cs, Forall harmless cs -> Forall (fun p => p_out p = Delivered) (c_pulls (run (cstep batch) (cinit m) cs)).
Proof.
  intros cs. induction cs as [|c cs IH] using rev_ind; intros H; [constructor|].
  apply Forall_app in H as [H1 H2]. specialize (IH H1). rewrite run_app. simpl.
  pose proof (reach_cinv m batch (cs ++ [c])) as CI. rewrite run_app in CI. simpl in CI. apply ci_reach in CI.
  unfold cstep at 1. unfold cstep at 1 in CI. unfold get_next_tests in *.
  destruct (call_pulls batch (fst c) DEFAULT_MAX_ATTEMPTS_IN_CYCLE (run (cstep batch) (cinit m) cs) (snd c)) as (ps & E & _ & F).
  rewrite E in *. apply Forall_app in CI as [_ CI]. apply Forall_app. split; auto.
  inversion H2 as [|? ? HC _]; subst. unfold harmless in HC. rewrite Forall_forall in *.
  intros p Hp. destruct (F p Hp) as [_ I]. destruct (HC _ I); auto. exfalso. exact (CI p Hp H).
Qed.

Lemma lossless m batch cs : Forall harmless cs ->
  let s := run (cstep batch) (cinit m) cs in m = received s ++ c_rem s.
Proof.
  intros H s. pose proof (reach_cinv m batch cs) as I. fold s in I. unfold received.
  rewrite all_delivered by (apply run_delivered; auto). exact (ci_split _ _ I).
Qed.

Lemma split_perm (ps : list pull) :
  Permutation (flat_map p_tests ps) (flat_map p_tests (filter delivered ps) ++ flat_map p_tests (filter (fun p => negb (delivered p)) ps)).
Proof.
  induction ps as [|p ps IH]; simpl; auto. destruct (delivered p); simpl.
  - rewrite <- app_assoc. now apply Permutation_app_head.
  - rewrite IH. rewrite Permutation_app_comm, <- app_assoc. apply Permutation_app_head, Permutation_app_comm.
Qed.

Lemma accounting m batch cs : let s := run (cstep batch) (cinit m) cs in Permutation m (received s ++ lost s ++ c_rem s).
Proof.
  intros s. pose proof (reach_cinv m batch cs) as I. fold s in I. rewrite (ci_split _ _ I) at 1. rewrite app_assoc.
  apply Permutation_app_tail. apply split_perm.
Qed.

(* the answer of a call *)
Fixpoint first_delivered (n : nat) (os : list outcome) : option bool :=
  match n, os with
  | 0, _ => Some false
  | _, [] => None
  | S n', o :: os' => match o with Delivered => Some true | _ => first_delivered n' os' end
  end.

Lemma call_answer batch k : forall n s os,
  match snd (call_loop n batch s k os) with
  | Answer ts e => first_delivered n os = Some true /\
      exists ps, c_pulls (fst (call_loop n batch s k os)) = c_pulls s ++ ps ++ [{| p_worker := k; p_tests := ts; p_eow := e; p_out := Delivered |}]
  | CallPanics => first_delivered n os = Some false
  | StillTrying => first_delivered n os = None
  end.
Proof.
  induction n as [|n IH]; intros s os; simpl; auto. destruct os as [|o os]; simpl; auto.
  assert (REC : o <> Delivered ->
    match snd (call_loop n batch (attempt_once batch s k o) k os) with
    | Answer ts e => first_delivered n os = Some true /\
        exists ps, c_pulls (fst (call_loop n batch (attempt_once batch s k o) k os)) = c_pulls s ++ ps ++ [{| p_worker := k; p_tests := ts; p_eow := e; p_out := Delivered |}]
    | CallPanics => first_delivered n os = Some false
    | StillTrying => first_delivered n os = None
    end).
  { intros _. specialize (IH (attempt_once batch s k o) os). destruct (snd (call_loop n batch (attempt_once batch s k o) k os)); auto.
    destruct IH as (A & ps & B). split; auto. rewrite B. unfold attempt_once. destruct (reaches o); [|eauto].
    destruct (serve_pulls batch s k o) as (ts & e & E). rewrite E, <- app_assoc. exists ({| p_worker := k; p_tests := ts; p_eow := e; p_out := o |} :: ps). reflexivity. }
  destruct o; try (apply REC; discriminate). simpl. unfold last_pull, attempt_once. simpl reaches. cbv iota.
  destruct (serve_pulls batch s k Delivered) as (ts & e & E). rewrite E, rev_unit. simpl. split; auto. exists []. exact E.
Qed.
