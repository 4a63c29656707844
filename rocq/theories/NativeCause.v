(* Proofs for C77: the error a runner ends with has its cause in what it was answered. *)
From Coq Require Import List Arith Bool String ZArith Lia.
From Verif Require Import NativeModel NativeSpec NativeProofs.
Import ListNotations.
Open Scope list_scope.

Section Cause.
Variable fetched : bool.
Definition ok_w : list event -> effect -> Prop := fun _ _ => True.
Definition ok_x : list event -> Prop := fun _ => True.

Lemma caused_more e h k : caused fetched e h -> caused fetched e (h ++ k).
Proof.
  destruct e; cbn; auto.
  - intros (x & I & F). exists x. split; auto. apply in_or_app. auto.
  - intros (p & I). exists p. apply in_or_app. auto.
  - intros (p & s & I & N). exists p, s. split; auto. apply in_or_app. auto.
  - intros (p & I). exists p. apply in_or_app. auto.
  - intros (p & t & I). exists p, t. apply in_or_app. auto.
  - intros (p & t & I & q & K). exists p, t. split; [apply in_or_app; auto|]. exists q. apply in_or_app. auto.
Qed.

Ltac here := repeat rewrite in_app_iff; cbn [In]; tauto.
Ltac io := cbn; first [match goal with |- exists x, In x (?h ++ [?y]) /\ _ => exists y; split; [here|reflexivity] end
                      |match goal with |- exists x, In x ((?h ++ [?y]) ++ _) /\ _ => exists y; split; [here|reflexivity] end].

Definition res_ok {A} (r : res A) (h : list event) : Prop := match r with Ok _ => True | Err e => caused fetched e h end.
Definition err_ok {A} (r : A + runner_error) (h : list event) : Prop := match r with inl _ => True | inr e => caused fetched (re_error e) h end.

(* whatever is asked next, the cause stays *)
Lemma wp_keeps {A} (p : program A) e : forall h (Q : A -> list event -> Prop), caused fetched e h ->
  (forall a h', caused fetched e h' -> Q a h') -> wp p ok_w ok_x Q h.
Proof.
  induction p as [a| |f k IH]; intros h Q C K; cbn; [auto|exact I|]. split; [exact I|]. intros a. apply IH; auto. now apply caused_more.
Qed.
(* a program that may end as it likes *)
Lemma wp_any {A} (p : program A) : forall h (Q : A -> list event -> Prop), (forall a h', Q a h') -> wp p ok_w ok_x Q h.
Proof. induction p as [a| |f k IH]; intros h Q K; cbn; [auto|exact I|]. split; [exact I|auto]. Qed.

Lemma hello_cause h p r : match checked_hello r with Ok _ => True | Err e => caused fetched e (h ++ [Ev (Hello p) r]) end.
Proof.
  destruct r as [| |s]; cbn.
  - exists p. here.
  - eexists. split; [here|reflexivity].
  - unfold supported. destruct (Nat.eqb_spec (fst (sp_version s)) 0); destruct (Nat.eqb_spec (snd (sp_version s)) 2); cbn; auto;
      exists p, s; (split; [here|]); intros E; rewrite E in *; cbn in *; lia.
Qed.

Lemma new_cause c m r prev p h : wp (new_native_runner c m r prev p) ok_w ok_x err_ok h.
Proof.
  unfold new_native_runner. apply wp_bind. split; [exact I|]. intros [addr|]; [|io]. apply wp_bind. split; [exact I|]. intros [|]; [|io].
  apply wp_bind. split; [exact I|]. intros said. pose proof (hello_cause ((h ++ [Ev Bind (Some addr)]) ++ [Ev (Spawn p {| l_env := command_env c addr m; l_retry := r; l_kill_on_drop := true |}) true]) p said) as H.
  cbn [wp negb]. destruct (checked_hello said) as [s|e]; [exact I|]. apply wp_bind. apply (wp_keeps _ e _ _ H). intros a h' C. exact C.
Qed.

Lemma send_init_cause hd meta h : wp (send_init_message hd meta) ok_w ok_x (fun ok h' => if ok then True else caused fetched EIo h') h.
Proof.
  unfold send_init_message. cbn. split; [exact I|]. intros [|]; cbn; [|io]. split; [exact I|]. intros [|]; cbn; auto. io.
Qed.

Lemma fast_exit_cause hd h : wp (send_fast_exit_message hd) ok_w ok_x res_ok h.
Proof.
  unfold send_fast_exit_message. cbn. split; [exact I|]. intros [|]; cbn; [|io]. split; [exact I|]. intros [|]; cbn; [|io].
  split; [exact I|]. intros [st|]; cbn; auto. io.
Qed.

Lemma start_cause c hd h : wp (reconcile_for_start_of_run c hd) ok_w ok_x err_ok h.
Proof.
  unfold reconcile_for_start_of_run. destruct (negb _); [exact I|]. apply wp_bind. eapply wp_mono; [apply new_cause|]. intros [s|e] h' H; exact H.
Qed.

Lemma finish_cause hd h : wp (finish hd) ok_w ok_x (fun r h' => snd r = None -> caused fetched EIo h') h.
Proof.
  unfold finish. destruct (s_finished _); cbn; [exact I|]. split; [exact I|]. intros [o|]; cbn; [discriminate|]. intros _. io.
Qed.

Lemma number_cause c hd n meta h : wp (reconcile_run_number c hd n meta) ok_w ok_x (fun r h' => res_ok (snd r) h') h.
Proof.
  unfold reconcile_run_number. destruct (Nat.eqb _ _); [exact I|]. apply wp_bind. split; [exact I|]. intros [|]; [|io]. apply wp_bind. split; [exact I|]. intros [st|]; [|io].
  cbn [wp negb]. apply wp_bind. eapply wp_mono; [apply finish_cause|]. intros [h1 [out|]] h' F; [|exact (F eq_refl)]. apply wp_bind. eapply wp_mono; [apply new_cause|].
  intros [s|e] h'' N; [|exact N]. apply wp_bind. eapply wp_mono; [apply send_init_cause|]. intros [|] h3 K; [exact I|exact K].
Qed.

Lemma failure_cause hd t rest e h : caused fetched e h -> wp (native_failure hd t rest e) ok_w ok_x (fun r h' => res_ok (snd r) h') h.
Proof.
  intros C. unfold native_failure. apply wp_bind. apply (wp_keeps _ e); auto. intros _ h1 C1. apply wp_bind. apply (wp_keeps _ e); auto. intros _ h2 C2.
  apply wp_bind. apply (wp_keeps _ e); auto.
Qed.

Lemma tests_cause c meta msgs : forall hd h, wp (run_tests c meta hd msgs) ok_w ok_x (fun r h' => res_ok (snd r) h') h.
Proof.
  induction msgs as [|m msgs IH]; intros hd h; cbn [run_tests].
  - apply wp_bind. split; [exact I|]. intros []. apply wp_bind. split; [exact I|]. intros [|]; [|io]. apply wp_bind. split; [exact I|]. intros [st|]; [exact I|io].
  - destruct m as [t|]; [|apply wp_bind; split; [exact I|]; intros []; apply IH].
    apply wp_bind. eapply wp_mono; [apply number_cause|]. intros [hd' [u|e]] h' N; [|exact N]. apply wp_bind. split; [exact I|].
    intros [rs| |]; cbn [wp].
    + apply wp_bind. split; [exact I|]. intros []. apply IH.
    + apply failure_cause. exists (s_proc (h_state hd')), t. here.
    + apply wp_bind. split; [exact I|]. intros [|]; cbn [wp].
      * apply failure_cause. exists (s_proc (h_state hd')), t. split; [here|]. exists (s_proc (h_state hd')). here.
      * io.
Qed.

Lemma execute_cause c hd msgs h : wp (execute_all_tests c hd msgs fetched) ok_w ok_x (fun r h' => res_ok (snd r) h') h.
Proof.
  unfold execute_all_tests. apply wp_bind. split; [exact I|]. intros [[meta|cancelled]|]; [| |io]; cbn [wp].
  - apply wp_bind. eapply wp_mono; [apply send_init_cause|]. intros [|] h1 C; [|exact C]. cbn [negb].
    apply wp_bind. eapply wp_mono; [apply tests_cause|]. intros [hd' r] h2 R. cbn [wp fst snd] in *. destruct fetched eqn:F; auto.
  - apply wp_bind. eapply wp_mono; [apply fast_exit_cause|]. intros [code|e] h1 R; cbn in *; auto.
Qed.

Lemma retrieve_cause hd h : wp (retrieve_manifest hd) ok_w ok_x (fun r h' => err_ok (snd r) h') h.
Proof.
  unfold retrieve_manifest. apply wp_bind. cbn [ask wp]. split; [exact I|]. intros msg. apply wp_bind.
  apply (wp_mono _ _ _ (fun (r : res manifest_message) h' => match r with Err e => caused fetched e h' | Ok (MFailure m) => caused fetched (ERunner m) h' | Ok _ => True end)).
  - destruct msg as [m|]; [|io]. apply wp_bind. split; [exact I|]. intros [st|]; [|io]. destruct m; [exact I|]. exists (s_proc (h_state hd)). here.
  - intros r h1 C. apply wp_bind.
    unfold finish. destruct (s_finished _); [exact I|]. cbn [bind ask wp]. split; [exact I|]. intros [o|]; cbn [wp bind]; [|io].
    destruct r as [[m|m]|e]; [exact I| |]; apply caused_more; exact C.
Qed.

Lemma rest_cause c hd mo msgs h : wp (run_the_tests c hd mo msgs fetched) ok_w ok_x err_ok h.
Proof.
  unfold run_the_tests. apply wp_bind. eapply wp_mono; [apply start_cause|]. intros [hd'|e] h1 C; [|exact C].
  apply wp_bind. eapply wp_mono; [apply execute_cause|]. intros [h2 r] h3 R. cbn [fst snd] in R. apply wp_bind.
  unfold finish. destruct (s_finished _); [exact I|]. cbn [bind ask wp]. split; [exact I|]. intros [o|]; cbn [wp bind]; [|exact I]. destruct r as [code|e]; [exact I|]. apply caused_more. exact R.
Qed.

Lemma run_cause c asked msgs h : wp (run_to_completion c asked msgs fetched) ok_w ok_x err_ok h.
Proof.
  unfold run_to_completion. apply wp_bind. eapply wp_mono; [apply new_cause|]. intros r h1 C. destruct asked.
  - apply wp_bind. apply (wp_mono _ _ _ err_ok).
    + destruct r as [s|e]; [|exact C]. apply wp_bind. eapply wp_mono; [apply retrieve_cause|]. intros [hd [m|e]] h2 R; exact R.
    + intros [[[m o] hd]|e] h2 R; cbn.
      * split; [exact I|]. intros []. apply rest_cause.
      * split; [exact I|]. intros []. now apply caused_more.
  - destruct r as [s|e]; [apply rest_cause|exact C].
Qed.
End Cause.
