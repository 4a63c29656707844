From Verif Require Import Base RunModel PoolModel PoolSpec PoolProofs WorkerModel WorkerSpec.
From Coq Require Import ZArith Lia.
Local Open Scope Z_scope.

Lemma pause_0 : pause 0 = DECAY. Proof. reflexivity. Qed.
Lemma pause_next i : next_decay (pause i) = pause (S i).
Proof.
  unfold next_decay, pause, MAX_DECAY. rewrite Nat2Z.inj_succ, Z.pow_succ_r by lia.
  assert (1 <= 2 ^ Z.of_nat i) by (assert (0 < 2 ^ Z.of_nat i) by (apply Z.pow_pos_nonneg; lia); lia).
  destruct (Z.leb_spec 3000 (Z.min (10 * 2 ^ Z.of_nat i) 3000 * 2)); lia.
Qed.

Definition neg_of (a : attempt) (ok : bool) : option negotiated :=
  match a with
  | Got (MCompleted code) => Some (Redundant code)
  | Got (MCancelled r) => Some (NCancelled r)
  | Got (MContext k d) => if d && negb ok then None else Some (Pool (generates k) (retries k))
  | _ => None
  end.
Definition asks (a : attempt) : list out := match a with NoConnection | WriteFailed => [] | _ => [Asked] end.
Definition starts_of (a : attempt) (ok : bool) : list (bool * bool) :=
  match neg_of a ok with Some (Pool b r) => [(b, r)] | _ => [] end.
Definition ended_of (n : negotiated) (es : list wevent) : option pool_end := match n with Pool _ _ => runners_end es | _ => None end.

Definition decided (es : list wevent) (P : attempt -> bool -> list wevent -> Prop) : Prop :=
  exists es1 a ok es2, es = es1 ++ EAttempt a ok :: es2 /\ undecided es1 /\ a <> Got MUnknown /\ P a ok es2.

Definition Good (es : list wevent) (w : worker) : Prop :=
  (w_signal w = true -> In ESignal es) /\
  match w_phase w with
  | Negotiating d => undecided es /\ d = pause (number_of_attempts es) /\
      w_log w = flat_map (fun i => [Asked; Slept (pause i)]) (seq 0 (number_of_attempts es))
  | Waiting n ended => decided es (fun a ok es2 => neg_of a ok = Some n /\ ended = ended_of n es2 /\ starts (w_log w) = starts_of a ok)
  | Cancelling n ended => In ESignal es /\ decided es (fun a ok es2 => neg_of a ok = Some n /\ ended = ended_of n es2 /\ starts (w_log w) = starts_of a ok)
  | Exited c => decided es (fun a ok es2 => right_code a ok es2 (In ESignal es) c /\ starts (w_log w) = starts_of a ok)
  end.

Lemma starts_app a b : starts (a ++ b) = starts a ++ starts b.
Proof. unfold starts. apply flat_map_app. Qed.
Lemma starts_asks k : forall i, starts (flat_map (fun j => [Asked; Slept (pause j)]) (seq i k)) = [].
Proof. induction k as [|k IH]; intros i; auto. cbn [seq flat_map]. rewrite starts_app, IH. reflexivity. Qed.
Lemma starts_print_errors ts : starts (print_errors ts) = []. Proof. destruct ts; reflexivity. Qed.
Lemma starts_process g l : starts (process_outputs g l) = [].
Proof. induction l as [|[i t] l IH]; auto. unfold process_outputs in *. cbn [flat_map]. rewrite starts_app, IH. destruct (g_piped g || _); reflexivity. Qed.
Lemma starts_manifest o : starts (manifest_output o) = [].
Proof. destruct o as [[i t]|]; auto. simpl. destruct (is_blank t); reflexivity. Qed.
Lemma starts_summary g st n : starts (summary_output g st n) = [].
Proof. unfold summary_output. destruct (_ || _); auto. destruct (g_write g && g_remote g); reflexivity. Qed.
Lemma starts_tell n : starts (tell_runners n) = []. Proof. destruct n; reflexivity. Qed.

Lemma starts_shutdown g w n e : starts (w_log (do_shutdown g w n e)) = starts (w_log w).
Proof.
  unfold do_shutdown. destruct e as [rs [p|]|]; unfold go; cbn [w_log]; rewrite ?starts_app, ?app_nil_r; auto.
  rewrite starts_manifest, starts_process, starts_print_errors, starts_summary.
  destruct (x_status _); [|rewrite starts_print_errors]; now rewrite ?app_nil_r.
Qed.

Lemma decided_snoc es ev (P Q : attempt -> bool -> list wevent -> Prop) :
  (forall a ok es2, a <> Got MUnknown -> P a ok es2 -> Q a ok (es2 ++ [ev])) -> decided es P -> decided (es ++ [ev]) Q.
Proof.
  intros H (es1 & a & ok & es2 & E & U & D & X). exists es1, a, ok, (es2 ++ [ev]). split; [now rewrite E, <- app_assoc|]. auto.
Qed.

Lemma runners_end_snoc es ev : runners_end (es ++ [ev]) = match runners_end es with Some e => Some e | None => runners_end [ev] end.
Proof. induction es as [|x es IH]; auto. destruct x; cbn [app runners_end]; auto. Qed.
Lemma ended_same n es ev : (forall e, ev <> EPoolEnds e) -> ended_of n (es ++ [ev]) = ended_of n es.
Proof. intros H. unfold ended_of. destruct n; auto. rewrite runners_end_snoc. destruct (runners_end es); auto. destruct ev; auto. now contradiction (H e). Qed.

Lemma right_snoc a ok es2 ev (S S' : Prop) c : (S -> S') -> right_code a ok es2 S c -> right_code a ok (es2 ++ [ev]) S' c.
Proof.
  intros I. unfold right_code. destruct a as [| | |[code|r|k d| |]]; auto; try tauto.
  destruct (d && negb ok); auto. intros (e & E & C). exists e. rewrite runners_end_snoc, E. split; auto. tauto.
Qed.

Lemma attempts_snoc es ev : number_of_attempts (es ++ [ev]) = (number_of_attempts es + if is_attempt ev then 1 else 0)%nat.
Proof. unfold number_of_attempts. rewrite filter_app, app_length. cbn [filter]. destruct (is_attempt ev); reflexivity. Qed.

(* the exit code of do_shutdown *)
Lemma shutdown_right g w a ok es2 (S : Prop) n e c : neg_of a ok = Some n -> wait_over n (ended_of n es2) = Some e ->
  w_phase (do_shutdown g w n e) = Exited c -> right_code a ok es2 S c.
Proof.
  intros N W X. destruct a as [| | |[code|r|k d| |]]; try discriminate; unfold right_code.
  - injection N as <-. cbn in W. injection W as <-. cbn in X. injection X as <-. left. reflexivity.
  - injection N as <-. cbn in W. injection W as <-. cbn in X. injection X as <-. left. reflexivity.
  - cbn [neg_of] in N. destruct (d && negb ok); [discriminate|]. injection N as <-. cbn [wait_over ended_of] in W. exists e. split; auto. left.
    destruct e as [rs [p|]|]; cbn in X; injection X as <-; reflexivity.
Qed.

Lemma shutdown_exits g w n e : exists c, w_phase (do_shutdown g w n e) = Exited c /\ w_signal (do_shutdown g w n e) = w_signal w.
Proof. destruct e as [rs [p|]|]; cbn; eexists; split; reflexivity. Qed.

Lemma good_step g es w ev : Good es w -> Good (es ++ [ev]) (wstep g w ev).
Proof.
  intros [SG G]. assert (SG' : w_signal w = true -> In ESignal (es ++ [ev])) by (intros X; apply in_or_app; auto).
  assert (INC : In ESignal es -> In ESignal (es ++ [ev])) by (intros X; apply in_or_app; auto).
  unfold wstep. destruct (w_phase w) as [d|n en|n en|c] eqn:P.
  - (* Negotiating *) destruct G as (U & D & L). destruct ev as [a ok| |e|b].
    + unfold negotiate.
      assert (LS : starts (w_log w) = []) by (rewrite L; apply starts_asks).
      assert (DE : forall Q : attempt -> bool -> list wevent -> Prop, a <> Got MUnknown -> Q a ok [] -> decided (es ++ [EAttempt a ok]) Q).
      { intros Q NE X. exists es, a, ok, []. auto. }
      destruct a as [| | |[code|r|k df| |]]; unfold go; (split; [try exact SG'; destruct df, ok; exact SG'|]); cbn [w_phase].
      * apply DE; [discriminate|]. split; [reflexivity|]. cbn [w_log]. now rewrite starts_app, LS.
      * apply DE; [discriminate|]. split; [reflexivity|]. cbn [w_log]. now rewrite starts_app, LS.
      * apply DE; [discriminate|]. split; [reflexivity|]. cbn [w_log]. now rewrite starts_app, LS.
      * apply DE; [discriminate|]. split; [reflexivity|]. split; [reflexivity|]. cbn [w_log]. now rewrite starts_app, LS.
      * apply DE; [discriminate|]. split; [reflexivity|]. split; [reflexivity|]. cbn [w_log]. now rewrite starts_app, LS.
      * destruct df, ok; cbn [andb negb w_signal w_phase w_log]; auto.
        -- apply DE; [discriminate|]. split; [reflexivity|]. split; [reflexivity|]. now rewrite starts_app, LS.
        -- apply DE; [discriminate|]. split; [reflexivity|]. now rewrite starts_app, LS.
        -- apply DE; [discriminate|]. split; [reflexivity|]. split; [reflexivity|]. now rewrite starts_app, LS.
        -- apply DE; [discriminate|]. split; [reflexivity|]. split; [reflexivity|]. now rewrite starts_app, LS.
      * rewrite attempts_snoc. cbn [is_attempt]. rewrite Nat.add_1_r. split; [apply Forall_app; split; auto|]. split; [rewrite D; apply pause_next|].
        cbn [w_log]. rewrite seq_S, flat_map_app, L, D. reflexivity.
      * apply DE; [discriminate|]. split; [reflexivity|]. cbn [w_log]. now rewrite starts_app, LS.
    + split; cbn [w_phase w_signal w_log]; [intros _; apply in_or_app; right; left; reflexivity|].
      rewrite attempts_snoc. cbn [is_attempt]. rewrite Nat.add_0_r. rewrite ?P. split; auto. apply Forall_app; split; auto.
    + split; [exact SG'|]. rewrite P, attempts_snoc. cbn [is_attempt]. rewrite Nat.add_0_r. split; auto. apply Forall_app; split; auto.
    + split; [exact SG'|]. rewrite P, attempts_snoc. cbn [is_attempt]. rewrite Nat.add_0_r. split; auto. apply Forall_app; split; auto.
  - (* Waiting *)
    assert (KEEP : (forall e, ev <> EPoolEnds e) -> decided (es ++ [ev]) (fun a ok es2 => neg_of a ok = Some n /\ en = ended_of n es2 /\ starts (w_log w) = starts_of a ok)).
    { intros NE. revert G. apply decided_snoc. intros a ok es2 _ (X & Y & Z). split; auto. split; auto. now rewrite ended_same. }
    destruct ev as [a ok| |e|b].
    + split; [exact SG'|]. rewrite P. apply KEEP. intros e E. discriminate.
    + split; cbn [w_phase w_signal w_log]; [intros _; apply in_or_app; right; left; reflexivity|]. rewrite ?P. apply KEEP. intros e E. discriminate.
    + destruct n as [code|r|g0 r0].
      * split; [exact SG'|]. rewrite P. revert G. apply decided_snoc. auto.
      * split; [exact SG'|]. rewrite P. revert G. apply decided_snoc. auto.
      * destruct en as [e'|].
        -- split; [exact SG'|]. rewrite P. revert G. apply decided_snoc. intros a ok es2 _ (X & Y & Z). split; auto. split; auto.
           cbn [ended_of] in *. now rewrite runners_end_snoc, <- Y.
        -- split; [exact SG'|]. unfold go. cbn [w_phase w_log]. rewrite app_nil_r. revert G. apply decided_snoc. intros a ok es2 _ (X & Y & Z). split; auto. split; auto.
           cbn [ended_of] in *. now rewrite runners_end_snoc, <- Y.
    + assert (NE : forall e, EPoll b <> EPoolEnds e) by discriminate. specialize (KEEP NE).
      destruct (w_signal w && _) eqn:SB.
      * apply andb_prop in SB as [SB _]. split; [exact SG'|]. unfold go. cbn [w_phase w_log]. split; [auto|].
        destruct KEEP as (es1 & a & ok & es2 & X). exists es1, a, ok, es2. rewrite starts_app, starts_tell, app_nil_r. exact X.
      * destruct (wait_over n en) as [e|] eqn:W.
        -- destruct (shutdown_exits g w n e) as (c & XC & XS). split; [rewrite XS; exact SG'|]. rewrite XC.
           destruct KEEP as (es1 & a & ok & es2 & E & U & D & X & Y & Z). exists es1, a, ok, es2. split; auto. split; auto. split; auto.
           split; [|now rewrite starts_shutdown]. eapply shutdown_right; eauto. now rewrite <- Y.
        -- split; [exact SG'|]. rewrite P. exact KEEP.
  - (* Cancelling *) destruct G as [SI G].
    assert (KEEP : (forall e, ev <> EPoolEnds e) -> decided (es ++ [ev]) (fun a ok es2 => neg_of a ok = Some n /\ en = ended_of n es2 /\ starts (w_log w) = starts_of a ok)).
    { intros NE. revert G. apply decided_snoc. intros a ok es2 _ (X & Y & Z). split; auto. split; auto. now rewrite ended_same. }
    destruct ev as [a ok| |e|b].
    + split; [exact SG'|]. rewrite P. split; auto. apply KEEP. intros e E. discriminate.
    + split; cbn [w_phase w_signal w_log]; [intros _; apply in_or_app; right; left; reflexivity|]. rewrite ?P. split; auto. apply KEEP. intros e E. discriminate.
    + destruct n as [code|r|g0 r0].
      * split; [exact SG'|]. rewrite P. split; auto. revert G. apply decided_snoc. auto.
      * split; [exact SG'|]. rewrite P. split; auto. revert G. apply decided_snoc. auto.
      * destruct en as [e'|].
        -- split; [exact SG'|]. rewrite P. split; auto. revert G. apply decided_snoc. intros a ok es2 _ (X & Y & Z). split; auto. split; auto.
           cbn [ended_of] in *. now rewrite runners_end_snoc, <- Y.
        -- split; [exact SG'|]. unfold go. cbn [w_phase w_log]. rewrite app_nil_r. split; auto. revert G. apply decided_snoc. intros a ok es2 _ (X & Y & Z). split; auto. split; auto.
           cbn [ended_of] in *. now rewrite runners_end_snoc, <- Y.
    + assert (NE : forall e, EPoll b <> EPoolEnds e) by discriminate. specialize (KEEP NE).
      destruct KEEP as (es1 & a & ok & es2 & E & U & D & X & Y & Z).
      destruct (wait_over n en) as [e|] eqn:W.
      * assert (RC : right_code a ok es2 (In ESignal (es ++ [EPoll b])) (match e with Ended _ _ => CANCELLED | RunnerPanicked => ABQ_ERROR end)).
        { destruct a as [| | |[code|r|k d| |]]; try discriminate; unfold right_code.
          - injection X as <-. cbn in W. injection W as <-. right; auto.
          - injection X as <-. cbn in W. injection W as <-. right; auto.
          - cbn [neg_of] in X. destruct (d && negb ok); [discriminate|]. injection X as <-. cbn [wait_over ended_of] in W, Y. exists e. split; [congruence|].
            right. split; auto. destruct e; reflexivity. }
        destruct e as [rs p|]; (split; [exact SG'|]); unfold go; cbn [w_phase w_log]; rewrite app_nil_r; exists es1, a, ok, es2; auto 8.
      * split; [exact SG'|]. rewrite P. split; auto. exists es1, a, ok, es2. auto 8.
  - (* Exited *) assert (EX : wstep g w ev = w) by (unfold wstep; rewrite P; destruct ev; reflexivity).
    assert (Good (es ++ [ev]) w).
    { split; [exact SG'|]. rewrite P. revert G. apply decided_snoc. intros a ok es2 _ [X Y]. split; auto. eapply right_snoc; eauto. }
    destruct ev; auto.
Qed.

Lemma good_run g es : Good es (run (wstep g) winit es).
Proof.
  induction es as [|ev es IH] using rev_ind.
  - split; [discriminate|]. split; [constructor|]. split; reflexivity.
  - rewrite run_app. apply good_step. exact IH.
Qed.
