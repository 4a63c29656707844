From Verif Require Import Base LifeModel LifeSpec.

Lemma server_eqb_spec a b : reflect (a = b) (server_eqb a b).
Proof. destruct a, b; constructor; congruence. Qed.
Lemma set_same {A} (f : server -> A) s a : set f s a s = a.
Proof. unfold set. destruct s; reflexivity. Qed.
Lemma set_other {A} (f : server -> A) s s' a : s' <> s -> set f s a s' = f s'.
Proof. unfold set. destruct (server_eqb_spec s' s); congruence. Qed.

(* ---- where the queue is ---- *)
Definition up (p : phase) : Prop := p = Running 0 \/ p = Ended.
Definition at_start (m : manager) (spare : option nat) : Prop := m_sent m = 0 /\ m_open m = true /\ m_shutdown m = false /\ m_spare m = spare.
Definition inv (st : state) : Prop :=
  let p := phases st in
  match own st with
  | Starting ops =>
      (ops = start_ops /\ at_start (mgr st) (Some 0) /\ p Main = Unbound /\ p Work = Unbound /\ p Negotiator = Unbound) \/
      (ops = skipn 1 start_ops /\ at_start (mgr st) (Some 0) /\ p Main = Bound /\ p Work = Unbound /\ p Negotiator = Unbound) \/
      (ops = skipn 2 start_ops /\ at_start (mgr st) (Some 0) /\ p Main = Bound /\ p Work = Unbound /\ p Negotiator = Bound) \/
      (ops = skipn 3 start_ops /\ at_start (mgr st) None /\ p Main = Running 0 /\ p Work = Unbound /\ p Negotiator = Bound) \/
      (ops = skipn 4 start_ops /\ at_start (mgr st) None /\ p Main = Running 0 /\ p Work = Bound /\ p Negotiator = Bound) \/
      (ops = skipn 5 start_ops /\ at_start (mgr st) None /\ p Main = Running 0 /\ p Work = Running 0 /\ p Negotiator = Bound)
  | StartPanicked => m_open (mgr st) = false /\ forall s, p s = Unbound \/ up (p s)
  | Live => at_start (mgr st) None /\ forall s, p s = Running 0
  | Joining l => m_sent (mgr st) = 1 /\ m_open (mgr st) = true /\ m_shutdown (mgr st) = true /\ (forall s, up (p s)) /\ (forall s, ~ In s l -> p s = Ended) /\ l <> []
                 /\ exists k, l = skipn k [Negotiator; Main; Work]
  | Stopped | StopPanicked => m_shutdown (mgr st) = true /\ forall s, p s = Ended
  | StopFailed => False
  | Dropped => m_open (mgr st) = false /\ forall s, up (p s)
  end.

Lemma inv_init : inv init.
Proof. left. repeat split. Qed.
Lemma inv_frame st st' : phases st' = phases st -> mgr st' = mgr st -> own st' = own st -> inv st -> inv st'.
Proof. unfold inv. intros -> -> ->. auto. Qed.

Lemma receivers_live st : (forall s, phases st s = Running 0) -> receivers st = 3.
Proof. intros H. unfold receivers. cbn [filter]. now rewrite !H. Qed.

Lemma inv_close st s : (own st <> Live) -> (forall ops, own st <> Starting ops) -> inv st -> inv (close st s).
Proof.
  intros NL NS. unfold inv, close. cbn [own with_log with_backlog with_phase phases mgr].
  assert (U : forall s0, up (set (phases st) s Ended s0) <-> (s0 = s \/ up (phases st s0))).
  { intros s0. unfold set. destruct (server_eqb_spec s0 s); [subst; split; auto; intros _; now right|]. tauto. }
  destruct (own st) as [ops| | |l| | | |]; try congruence; try tauto.
  - intros [O H]. split; auto. intros s0. specialize (H s0). unfold set. destruct (server_eqb_spec s0 s); [right; now right|auto].
  - intros (A & B & C & D & E & F & G). split; [auto|]. split; [auto|]. split; [auto|]. split; [intros s0; apply U; auto|]. split; [|split; auto].
    intros s0 N. unfold set. destruct (server_eqb_spec s0 s); auto.
  - intros [A B]. split; auto. intros s0. unfold set. destruct (server_eqb_spec s0 s); auto.
  - intros [A B]. split; auto. intros s0. unfold set. destruct (server_eqb_spec s0 s); auto.
  - intros [A B]. split; auto. intros s0. apply U. auto.
Qed.

(* a queue that is being started or live has nothing to see *)
Lemma nothing_to_see st s n : inv st -> phases st s = Running n -> recv_ready (mgr st) n = true -> own st <> Live /\ (forall ops, own st <> Starting ops).
Proof.
  unfold inv, recv_ready, at_start. intros I P R. destruct (own st) as [ops| | |l| | | |] eqn:O; try (split; congruence).
  - exfalso. destruct I as [I|[I|[I|[I|[I|I]]]]]; destruct I as (_ & (S1 & S2 & S3 & S4) & M & W & N); rewrite S1, S2 in R; destruct s; rewrite ?M, ?W, ?N in P; try discriminate; injection P as <-; discriminate.
  - exfalso. destruct I as ((S1 & S2 & S3 & S4) & H). rewrite S1, S2 in R. rewrite H in P. injection P as <-. discriminate.
Qed.

Lemma inv_panics st : (exists ops, own st = Starting ops) -> inv st -> inv (start_panics st).
Proof.
  intros [ops O] I. unfold inv, start_panics. cbn [own with_own with_mgr mgr drop_manager m_open phases]. split; auto.
  assert (A : forall s, phases st s = Unbound \/ phases st s = Bound \/ phases st s = Running 0).
  { unfold inv in I. rewrite O in I. destruct I as [I|[I|[I|[I|[I|I]]]]]; destruct I as (_ & _ & M & W & N); intros []; rewrite ?M, ?W, ?N; auto. }
  assert (C : forall st0 s s', phases (close_if_bound st0 s) s' = (if server_eqb s' s then match phases st0 s' with Bound => Ended | q => q end else phases st0 s')).
  { intros st0 s s'. unfold close_if_bound. destruct (server_eqb_spec s' s) as [<-|Ne].
    - destruct (phases st0 s') eqn:E; rewrite ?E; auto. cbn. apply set_same.
    - destruct (phases st0 s) eqn:E; auto. cbn. apply set_other. auto. }
  intros s. rewrite !C. specialize (A s). unfold up. destruct s; cbn [server_eqb]; destruct (phases st _); intuition (try discriminate; auto).
Qed.

Lemma inv_step st e : inv st -> inv (step st e).
Proof.
  intros I. destruct e as [ok|s c|s|s lost|t|s|i ok| | | |]; cbn [step].
  - destruct (own st) as [[|op ops]| | | | | | |] eqn:O; auto.
    assert (I0 := I). unfold inv in I. rewrite O in I.
    destruct op as [s|s].
    + destruct ok; [|apply inv_panics; eauto].
      destruct I as [I|[I|[I|[I|[I|I]]]]]; destruct I as (E & A & M & W & N); cbn in E; try discriminate; injection E as E1 E2; subst s ops;
        unfold inv; cbn [with_own with_phase own phases mgr].
      * right. left. cbn. rewrite W, N. repeat split; auto; apply A.
      * right. right. left. cbn. rewrite W, M. repeat split; auto; apply A.
      * right. right. right. right. left. cbn. rewrite N, M. repeat split; auto; apply A.
    + unfold add_receiver.
      destruct I as [I|[I|[I|[I|[I|I]]]]]; destruct I as (E & (A1 & A2 & A3 & A4) & M & W & N); cbn in E; try discriminate; injection E as E1 E2; subst s ops; rewrite A4, ?A1;
        unfold inv; cbn [with_own with_phase with_mgr own phases mgr].
      * right. right. right. left. cbn. rewrite W, N. repeat split; auto.
      * right. right. right. right. right. cbn. rewrite M, N. repeat split; auto.
      * cbn. split; [repeat split; auto|]. intros []; cbn; auto.
  - destruct (phases st s); try (apply inv_frame with st; auto).
  - destruct (phases st s); auto. destruct (backlog st s); auto; try (apply inv_frame with st; auto).
  - destruct (phases st s); auto. destruct (backlog st s); auto. destruct lost; auto; try (apply inv_frame with st; auto).
  - destruct (phases st Main); auto; try (apply inv_frame with st; auto).
  - destruct (phases st s) as [| |n|] eqn:P; auto. destruct (recv_ready (mgr st) n) eqn:R; auto. destruct (nothing_to_see st s n I P R). apply inv_close; auto.
  - destruct (nth_error (jobs st) i) as [[j []]|]; auto; try (apply inv_frame with st; auto).
  - destruct (own st) eqn:O; exact I.
  - destruct (own st) as [ops| | |l| | | |] eqn:O; auto; unfold inv in I; rewrite O in I.
    + destruct I as ((A1 & A2 & A3 & A4) & H). rewrite A3, (receivers_live st H). cbn [Nat.eqb]. unfold inv. cbn [with_own with_mgr own mgr m_sent m_open m_shutdown phases].
      rewrite A1. repeat split; auto; [intros s; left; apply H|intros [] N; exfalso; apply N; cbn; auto|discriminate|exists 0; reflexivity].
    + destruct I as [A H]. rewrite A. unfold inv. cbn [with_own own mgr phases]. auto.
    + contradiction.
  - destruct (own st) as [ops| | |l| | | |] eqn:O; auto. destruct l as [|s rest]; auto. destruct (phases st s) eqn:P; auto.
    unfold inv in I. rewrite O in I. destruct I as (A & B & C & D & E & _ & k & K). unfold inv. cbn [with_own own mgr phases].
    assert (E' : forall s0, ~ In s0 rest -> phases st s0 = Ended).
    { intros s0 N. destruct (server_eqb_spec s0 s); [subst; auto|]. apply E. intros [Q|Q]; auto. }
    destruct rest as [|s2 rest].
    + split; auto.
    + repeat split; auto; [discriminate|]. exists (S k). destruct k as [|[|[|k]]]; cbn in *; [injection K; intros; now subst|injection K; intros; now subst|discriminate|destruct k; discriminate].
  - destruct (own st) as [ops| | |l| | | |] eqn:O; auto; unfold inv in *; rewrite O in I; cbn [with_own with_mgr own mgr drop_manager m_open phases]; (split; [reflexivity|]); intros s.
    + left. apply I.
    + apply I.
    + right. apply I.
    + contradiction.
    + right. apply I.
Qed.

Lemma run_app (st : state) h h' : run step st (h ++ h') = run step (run step st h) h'.
Proof. unfold run. apply fold_left_app. Qed.
Lemma run_snoc (st : state) h e : run step st (h ++ [e]) = step (run step st h) e.
Proof. rewrite run_app. reflexivity. Qed.
Lemma inv_run h : forall st, inv st -> inv (run step st h).
Proof. induction h as [|e h IH]; intros st I; [exact I|]. apply (IH (step st e)). now apply inv_step. Qed.
Lemma inv_after h : inv (after h).
Proof. apply inv_run, inv_init. Qed.

(* ---- connections ---- *)
Definition conns (st : state) : Prop :=
  (forall s, pick (left s) (log st) ++ backlog st s = pick (came s) (log st)) /\
  (forall s, phases st s = Ended \/ phases st s = Unbound -> backlog st s = []) /\
  map fst (jobs st) = flat_map job_of (log st).

Lemma pick_app f l l' : pick f (l ++ l') = pick f l ++ pick f l'.
Proof. apply flat_map_app. Qed.
Lemma resets s s' b : pick (left s') (map (Severed s) b) = if server_eqb s' s then b else [].
Proof. unfold pick. induction b as [|c b IH]; cbn; [destruct (server_eqb s' s); reflexivity|]. rewrite IH. destruct (server_eqb s' s); reflexivity. Qed.
Lemma resets_came s s' b : pick (came s') (map (Severed s) b) = [].
Proof. unfold pick. induction b; cbn; auto. Qed.
Lemma resets_jobs s b : flat_map job_of (map (Severed s) b) = [].
Proof. induction b; cbn; auto. Qed.

Lemma conns_close st s : conns st -> conns (close st s).
Proof.
  intros (F & B & J). unfold conns, close. cbn [with_log with_backlog with_phase phases backlog log jobs]. split; [|split].
  - intros s'. rewrite !pick_app, resets, resets_came, app_nil_r. unfold set. destruct (server_eqb_spec s' s) as [->|N]; [rewrite app_nil_r|rewrite app_nil_r]; apply F.
  - intros s'. unfold set. destruct (server_eqb_spec s' s); auto.
  - now rewrite flat_map_app, resets_jobs, app_nil_r.
Qed.
Lemma conns_frame st st' : (forall s, phases st' s = Ended \/ phases st' s = Unbound -> phases st s = Ended \/ phases st s = Unbound) -> backlog st' = backlog st -> log st' = log st -> map fst (jobs st') = map fst (jobs st) -> conns st -> conns st'.
Proof. unfold conns. intros P -> -> -> (F & B & J). repeat split; auto. Qed.
Lemma map_fst_upd {A B} (l : list (A * B)) : forall i a b c, nth_error l i = Some (a, b) -> map fst (upd i (a, c) l) = map fst l.
Proof. induction l as [|x l IH]; intros [|i] a b c; cbn; auto; [intros [= ->]; reflexivity|intros H; now rewrite (IH i a b c H)]. Qed.

Lemma conns_step st e : inv st -> conns st -> conns (step st e).
Proof.
  intros I C. destruct e as [ok|s c|s|s lost|t|s|i ok| | | |]; cbn [step].
  - destruct (own st) as [[|op ops]| | | | | | |] eqn:O; auto. destruct op as [s|s].
    + destruct ok.
      * apply conns_frame with st; auto. intros s'. cbn [with_own with_phase phases]. unfold set. destruct (server_eqb_spec s' s); [intros [Q|Q]; discriminate|auto].
      * assert (K : forall st0 s, conns st0 -> conns (close_if_bound st0 s)) by (intros st0 s0 H; unfold close_if_bound; destruct (phases st0 s0); auto; now apply conns_close).
        unfold start_panics. cbn zeta. pose proof (K _ Work (K _ Negotiator (K _ Main C))) as X. revert X. generalize (close_if_bound (close_if_bound (close_if_bound st Main) Negotiator) Work). intros st1 X. exact X.
    + destruct (add_receiver (mgr st)) as [r m]. apply conns_frame with st; auto. intros s'. cbn [with_own with_mgr with_phase phases]. unfold set. destruct (server_eqb_spec s' s); [intros [Q|Q]; discriminate|auto].
  - assert (K : (phases st s = Bound \/ exists n, phases st s = Running n) -> conns (with_log (with_backlog st s (backlog st s ++ [c])) [Arrived s c])).
    { intros P. destruct C as (F & B & J). unfold conns. cbn [with_log with_backlog phases backlog log jobs]. split; [|split].
      - intros s'. rewrite !pick_app. cbn. rewrite !app_nil_r. unfold set. destruct (server_eqb_spec s' s) as [->|N]; [rewrite app_assoc, F; reflexivity|rewrite app_nil_r; apply F].
      - intros s' P'. unfold set. destruct (server_eqb_spec s' s) as [->|N]; [destruct P as [P|[n P]], P' as [P'|P']; congruence|auto].
      - rewrite flat_map_app, J. cbn. now rewrite app_nil_r. }
    assert (L : conns (with_log st [Refused s c])).
    { destruct C as (F & B & J). unfold conns. cbn [with_log phases backlog log jobs]. repeat split; auto.
      - intros s'. rewrite !pick_app. cbn. rewrite !app_nil_r. apply F.
      - rewrite flat_map_app, J. cbn. now rewrite app_nil_r. }
    destruct (phases st s) eqn:P; auto. apply K. right. eauto.
  - destruct (phases st s) as [| |n|] eqn:P; auto. destruct (backlog st s) as [|c rest] eqn:Q; auto. destruct C as (F & B & J). unfold conns. cbn [with_jobs with_log with_backlog phases backlog log jobs]. split; [|split].
    + intros s'. rewrite !pick_app. cbn. rewrite !app_nil_r. specialize (F s'). unfold set. destruct (server_eqb_spec s' s) as [->|N]; [rewrite Q in F; rewrite <- F, <- app_assoc; reflexivity|rewrite app_nil_r; exact F].
    + intros s' P'. unfold set. destruct (server_eqb_spec s' s) as [->|N]; [destruct P' as [P'|P']; congruence|auto].
    + rewrite flat_map_app, map_app, J. reflexivity.
  - destruct (phases st s) as [| |n|] eqn:P; auto. destruct (backlog st s) as [|c rest] eqn:Q; auto. destruct lost; auto. destruct C as (F & B & J). unfold conns. cbn [with_log with_backlog phases backlog log jobs]. split; [|split].
    + intros s'. rewrite !pick_app. cbn. rewrite !app_nil_r. specialize (F s'). unfold set. destruct (server_eqb_spec s' s) as [->|N]; [rewrite Q in F; rewrite <- F, <- app_assoc; reflexivity|rewrite app_nil_r; exact F].
    + intros s' P'. unfold set. destruct (server_eqb_spec s' s) as [->|N]; [destruct P' as [P'|P']; congruence|auto].
    + rewrite flat_map_app, J. cbn. now rewrite app_nil_r.
  - destruct (phases st Main) eqn:P; auto. destruct C as (F & B & J). unfold conns. cbn [with_jobs with_log phases backlog log jobs]. repeat split; auto.
    + intros s'. rewrite !pick_app. cbn. rewrite !app_nil_r. apply F.
    + rewrite flat_map_app, map_app, J. reflexivity.
  - destruct (phases st s) as [| |n|] eqn:P; auto. destruct (recv_ready (mgr st) n); auto. now apply conns_close.
  - destruct (nth_error (jobs st) i) as [[j []]|] eqn:N; auto. apply conns_frame with st; auto. cbn [with_jobs jobs]. eapply map_fst_upd, N.
  - destruct (own st); auto. 
  - destruct (own st); auto; destruct (m_shutdown (mgr st)); auto; destruct (Nat.eqb (receivers st) 0); auto.
  - destruct (own st) as [ops| | |[|s rest]| | | |]; auto. destruct (phases st s); auto.
  - destruct (own st); auto.
Qed.
Lemma conns_after h : conns (after h).
Proof.
  induction h as [|e h IH] using rev_ind.
  - unfold conns, after. cbn. repeat split; auto.
  - unfold after. rewrite run_snoc. apply conns_step; [apply inv_after|exact IH].
Qed.

(* ---- the end of servers ---- *)
Lemma ended_stays st e s : phases st s = Ended -> (forall ops, own st <> Starting ops) -> phases (step st e) s = Ended.
Proof.
  intros P NS. assert (CL : forall s', phases (close st s') s = Ended) by (intros s'; unfold close; cbn [with_log with_backlog with_phase phases]; unfold set; destruct (server_eqb s s'); auto).
  destruct e as [ok|s' c|s'|s' lost|t|s'|i ok| | | |]; cbn [step].
  - destruct (own st) as [ops| | | | | | |] eqn:O; auto. exfalso. now apply (NS ops).
  - destruct (phases st s'); auto.
  - destruct (phases st s'); auto. destruct (backlog st s'); auto.
  - destruct (phases st s'); auto. destruct (backlog st s'); auto. destruct lost; auto.
  - destruct (phases st Main); auto.
  - destruct (phases st s') as [| |n|]; auto. destruct (recv_ready (mgr st) n); auto.
  - destruct (nth_error (jobs st) i) as [[j []]|]; auto.
  - destruct (own st); auto.
  - destruct (own st); auto; destruct (m_shutdown (mgr st)); auto; destruct (Nat.eqb (receivers st) 0); auto.
  - destruct (own st) as [ops| | |[|s0 rest]| | | |]; auto. destruct (phases st s0); auto.
  - destruct (own st); auto.
Qed.
Lemma started_stays st e : started st -> started (step st e).
Proof.
  unfold started. intros [A B]. destruct e as [ok|s' c|s'|s' lost|t|s'|i ok| | | |]; cbn [step].
  - destruct (own st) as [ops| | | | | | |] eqn:O; rewrite ?O; try (split; congruence); exfalso; now apply (B ops).
  - destruct (phases st s'); cbn; auto.
  - destruct (phases st s'); auto. destruct (backlog st s'); auto.
  - destruct (phases st s'); auto. destruct (backlog st s'); auto. destruct lost; auto.
  - destruct (phases st Main); auto.
  - destruct (phases st s') as [| |n|]; auto. destruct (recv_ready (mgr st) n); auto.
  - destruct (nth_error (jobs st) i) as [[j []]|]; auto.
  - destruct (own st) eqn:O; cbn [with_mgr own]; rewrite ?O; (split; congruence).
  - destruct (own st) eqn:O; rewrite ?O; try (split; congruence); destruct (m_shutdown (mgr st)); cbn [with_own with_mgr own]; try (split; congruence); destruct (Nat.eqb (receivers st) 0); cbn [with_own with_mgr own]; split; congruence.
  - destruct (own st) as [ops| | |[|s0 rest]| | | |] eqn:O; rewrite ?O; try (split; congruence). destruct (phases st s0); cbn; rewrite ?O; try (split; congruence). destruct rest; split; congruence.
  - destruct (own st) eqn:O; cbn; rewrite ?O; split; congruence.
Qed.

(* ---- while nobody ends it ---- *)
Definition starts (h : list event) : nat := length (filter (fun e => match e with StartStep _ => true | _ => false end) h).
Lemma starts_snoc h e : starts (h ++ [e]) = starts h + (match e with StartStep _ => 1 | _ => 0 end).
Proof. unfold starts. rewrite filter_app, app_length. destruct e; cbn; lia. Qed.
Lemma own_frame st e : (forall b, e <> StartStep b) -> ~ ends_queue e -> (forall l, own st <> Joining l) -> own (step st e) = own st.
Proof.
  intros NS NE NJ. unfold ends_queue in NE. destruct e as [ok|s' c|s'|s' lost|t|s'|i ok| | | |]; cbn [step].
  - now contradiction (NS ok).
  - destruct (phases st s'); auto.
  - destruct (phases st s'); auto. destruct (backlog st s'); auto.
  - destruct (phases st s'); auto. destruct (backlog st s'); auto. destruct lost; auto.
  - destruct (phases st Main); auto.
  - destruct (phases st s') as [| |n|]; auto. destruct (recv_ready (mgr st) n); auto.
  - destruct (nth_error (jobs st) i) as [[j []]|]; auto.
  - destruct (own st) eqn:O; auto.
  - tauto.
  - destruct (own st) as [ops| | |l| | | |] eqn:O; auto. now contradiction (NJ l).
  - tauto.
Qed.
Definition no_end (h : list event) : Prop := forall e, In e h -> ~ ends_queue e.
Lemma own_unended h : no_end h -> (starts h < 6 /\ own (after h) = Starting (skipn (starts h) start_ops)) \/ (6 <= starts h /\ own (after h) = Live).
Proof.
  induction h as [|e h IH] using rev_ind; intros N; [left; split; [cbn; lia|reflexivity]|].
  assert (N' : no_end h) by (intros x I; apply N, in_or_app; auto). assert (Ne : ~ ends_queue e) by (apply N, in_or_app; right; now left).
  rewrite starts_snoc. unfold after. rewrite run_snoc. fold (after h). specialize (IH N'). destruct e as [ok|s' c|s'|s' lost|t|s'|i ok| | | |];
    try (rewrite Nat.add_0_r; rewrite own_frame; [exact IH|discriminate|exact Ne|destruct IH as [[_ ->]|[_ ->]]; discriminate]).
  assert (ok = true) as -> by (destruct ok; auto; exfalso; apply Ne; right; now right).
  destruct IH as [[L O]|[L O]].
  - cbn [step]. rewrite O. assert (C : starts h = 0 \/ starts h = 1 \/ starts h = 2 \/ starts h = 3 \/ starts h = 4 \/ starts h = 5) by lia.
    destruct C as [C|[C|[C|[C|[C|C]]]]]; rewrite C; cbn [skipn start_ops]; unfold add_receiver; cbn; [left|left|left|left|left|right]; (split; [lia|reflexivity]).
  - right. split; [lia|]. cbn [step]. now rewrite O.
Qed.
Lemma unended_phases h s : no_end h -> phases (after h) s <> Ended.
Proof.
  intros N. pose proof (inv_after h) as I. unfold inv in I. destruct (own_unended h N) as [[_ O]|[_ O]]; rewrite O in I.
  - destruct I as [I|[I|[I|[I|[I|I]]]]]; destruct I as (_ & _ & A & B & C); destruct s; rewrite ?A, ?B, ?C; discriminate.
  - destruct I as [_ I]. rewrite I. discriminate.
Qed.
Lemma unended_log h : no_end h -> forall o, In o (log (after h)) -> (forall s c, o <> Severed s c) /\ ((forall s, ~ In (AcceptFails s true) h) -> forall s c, o <> Lost s c).
Proof.
  induction h as [|e h IH] using rev_ind; intros N o; [intros []|].
  assert (N' : no_end h) by (intros x I; apply N, in_or_app; auto). assert (Ne : ~ ends_queue e) by (apply N, in_or_app; right; now left).
  unfold after. rewrite run_snoc. fold (after h). set (st := after h).
  assert (F : forall l, (log (step st e) = log st ++ l) -> (forall o, In o l -> (forall s c, o <> Severed s c) /\ ((forall s, e <> AcceptFails s true) -> forall s c, o <> Lost s c)) -> In o (log (step st e)) ->
     (forall s c, o <> Severed s c) /\ ((forall s, ~ In (AcceptFails s true) (h ++ [e])) -> forall s c, o <> Lost s c)).
  { intros l E H I. rewrite E in I. apply in_app_or in I as [I|I].
    - destruct (IH N' o I) as [A B]. split; auto. intros K. apply B. intros s J. apply (K s), in_or_app. auto.
    - destruct (H o I) as [A B]. split; auto. intros K. apply B. intros s J. apply (K s), in_or_app. right. left. auto. }
  assert (Z : log (step st e) = log st -> In o (log (step st e)) -> (forall s c, o <> Severed s c) /\ ((forall s, ~ In (AcceptFails s true) (h ++ [e])) -> forall s c, o <> Lost s c)).
  { intros E. apply (F []); [rewrite app_nil_r; exact E|intros x []]. }
  destruct e as [ok|s' c|s'|s' lost|t|s'|i ok| | | |]; cbn [step] in *.
  - assert (ok = true) as -> by (destruct ok; auto; exfalso; apply Ne; right; now right). apply Z. destruct (own st) as [[|[]]| | | | | | |]; try reflexivity.
  - destruct (phases st s').
    + apply (F [Refused s' c]); [reflexivity|]. intros x [<-|[]]; split; discriminate.
    + apply (F [Arrived s' c]); [reflexivity|]. intros x [<-|[]]; split; discriminate.
    + apply (F [Arrived s' c]); [reflexivity|]. intros x [<-|[]]; split; discriminate.
    + apply (F [Refused s' c]); [reflexivity|]. intros x [<-|[]]; split; discriminate.
  - destruct (phases st s'); auto. destruct (backlog st s') as [|c rest]; auto. apply (F [Handed s' c]); [reflexivity|]. intros x [<-|[]]; split; discriminate.
  - destruct (phases st s'); auto. destruct (backlog st s') as [|c rest]; auto. destruct lost; auto. apply (F [Lost s' c]); [reflexivity|]. intros x [<-|[]]; split; [discriminate|].
    intros K. now contradiction (K s').
  - destruct (phases st Main); auto. apply (F [TimedOut t]); [reflexivity|]. intros x [<-|[]]; split; discriminate.
  - destruct (phases st s') as [| |n|] eqn:P; auto. destruct (recv_ready (mgr st) n) eqn:R; auto. exfalso. destruct (nothing_to_see st s' n (inv_after h) P R) as [A B].
    destruct (own_unended h N') as [[_ O]|[_ O]]; [apply (B _ O)|apply (A O)].
  - apply Z. destruct (nth_error (jobs st) i) as [[j []]|]; reflexivity.
  - apply Z. destruct (own st); reflexivity.
  - exfalso. apply Ne. now left.
  - apply Z. destruct (own st) as [ops| | |[|s0 rest]| | | |]; try reflexivity. destruct (phases st s0); reflexivity.
  - exfalso. apply Ne. right. now left.
Qed.
Lemma handed_left s l : (forall o, In o l -> (forall s c, o <> Severed s c) /\ (forall s c, o <> Lost s c)) -> pick (handed s) l = pick (left s) l.
Proof.
  unfold pick. induction l as [|o l IH]; intros H; [reflexivity|]. cbn [flat_map]. rewrite IH by (intros x I; apply H; now right). f_equal.
  destruct (H o (or_introl eq_refl)) as [A B]. destruct o; cbn; auto; [now contradiction (B s0 c)|now contradiction (A s0 c)].
Qed.

(* ---- after the end ---- *)
Lemma over_step st e : (forall s, phases st s = Ended) -> started st -> (forall s, phases (step st e) s = Ended) /\ started (step st e) /\ (log (step st e) = log st \/ exists s c, log (step st e) = log st ++ [Refused s c]) /\ map fst (jobs (step st e)) = map fst (jobs st).
Proof.
  intros P S0. split; [intros s; apply ended_stays; auto; apply S0|]. split; [now apply started_stays|].
  destruct e as [ok|s' c|s'|s' lost|t|s'|i ok| | | |]; cbn [step]; rewrite ?P; auto.
  - destruct S0 as [_ B]. destruct (own st) as [ops| | | | | | |] eqn:O; auto. now contradiction (B ops).
  - split; auto. right. eexists _, _. reflexivity.
  - split; [destruct (nth_error (jobs st) i) as [[j []]|]; auto|]. destruct (nth_error (jobs st) i) as [[j []]|] eqn:N; auto. cbn [with_jobs jobs]. eapply map_fst_upd, N.
  - destruct (own st); auto.
  - destruct (own st); auto; destruct (m_shutdown (mgr st)); auto; destruct (Nat.eqb (receivers st) 0); auto.
  - destruct (own st) as [ops| | |[|s0 rest]| | | |]; auto. rewrite P. auto.
  - destruct (own st); auto.
Qed.
Lemma over_run h : forall st, (forall s, phases st s = Ended) -> started st ->
  (forall s, phases (run step st h) s = Ended) /\ map fst (jobs (run step st h)) = map fst (jobs st) /\ exists l, log (run step st h) = log st ++ l /\ forall o, In o l -> exists s c, o = Refused s c.
Proof.
  induction h as [|e h IH]; intros st P S0.
  - cbn. repeat split; auto. exists []. rewrite app_nil_r. split; auto. intros o [].
  - destruct (over_step st e P S0) as (P' & S' & L & J). destruct (IH _ P' S') as (A & B & l & E & F). change (run step st (e :: h)) with (run step (step st e) h). split; auto. split; [congruence|].
    destruct L as [L|(s & c & L)]; [exists l|exists (Refused s c :: l)]; rewrite E, L; (split; [rewrite <- ?app_assoc; reflexivity|auto]).
    intros o [<-|I]; eauto.
Qed.

(* ---- shutting down ---- *)
Definition closing (st : state) : Prop := (exists l, own st = Joining l) \/ own st = Stopped.
Lemma closing_step st e : inv st -> closing st -> e <> DropQueue -> e <> Shutdown -> closing (step st e).
Proof.
  intros I C ND NS. unfold closing in *. destruct e as [ok|s' c|s'|s' lost|t|s'|i ok| | | |]; cbn [step]; try congruence.
  - destruct (own st) eqn:O; rewrite ?O; auto; destruct C as [[l C]|C]; discriminate.
  - destruct (phases st s'); auto.
  - destruct (phases st s'); auto. destruct (backlog st s'); auto.
  - destruct (phases st s'); auto. destruct (backlog st s'); auto. destruct lost; auto.
  - destruct (phases st Main); auto.
  - destruct (phases st s') as [| |n|]; auto. destruct (recv_ready (mgr st) n); auto.
  - destruct (nth_error (jobs st) i) as [[j []]|]; auto.
  - destruct (own st) eqn:O; cbn [with_mgr own]; rewrite ?O; auto; destruct C as [[l C]|C]; discriminate.
  - destruct (own st) as [ops| | |[|s0 rest]| | | |] eqn:O; rewrite ?O; auto. destruct (phases st s0); rewrite ?O; auto. cbn [with_own own]. destruct rest; eauto.
Qed.
Lemma closing_run h : forall st, inv st -> closing st -> ~ In DropQueue h -> ~ In Shutdown h -> closing (run step st h).
Proof.
  induction h as [|e h IH]; intros st I C ND NS; [exact C|]. apply (IH (step st e)); [now apply inv_step| |intros Q; apply ND; now right|intros Q; apply NS; now right].
  apply closing_step; auto; [intros ->; apply ND; now left|intros ->; apply NS; now left].
Qed.
Lemma closing_started st : closing st -> started st.
Proof. intros [[l H]|H]; unfold started; rewrite H; split; congruence. Qed.
Lemma see_closes st s : inv st -> closing st -> phases (step st (See s)) s = Ended.
Proof.
  intros I C. unfold inv in I. cbn [step]. destruct C as [[l O]|O]; rewrite O in I.
  - destruct I as (A & B & _ & U & _). destruct (U s) as [->|E]; [unfold recv_ready; rewrite A; cbn; apply set_same|rewrite E; exact E].
  - destruct I as [_ H]. rewrite H. apply H.
Qed.
Lemma ended_run h : forall st s, phases st s = Ended -> started st -> phases (run step st h) s = Ended.
Proof.
  induction h as [|e h IH]; intros st s P S0; [exact P|]. apply (IH (step st e)); [apply ended_stays; auto; apply S0|now apply started_stays].
Qed.
Lemma sees_close h : forall st s, inv st -> closing st -> ~ In DropQueue h -> ~ In Shutdown h -> In (See s) h -> phases (run step st h) s = Ended.
Proof.
  induction h as [|e h IH]; intros st s I C ND NS IS; [destruct IS|]. change (run step st (e :: h)) with (run step (step st e) h).
  assert (C' : closing (step st e)) by (apply closing_step; auto; [intros ->; apply ND; now left|intros ->; apply NS; now left]).
  destruct IS as [->|IS].
  - apply ended_run; [now apply see_closes|now apply closing_started].
  - apply IH; auto; [now apply inv_step|intros Q; apply ND; now right|intros Q; apply NS; now right].
Qed.
Lemma own_frame2 st e : started st -> e <> Join -> e <> Shutdown -> e <> DropQueue -> own (step st e) = own st.
Proof.
  intros [A B] NJ NS ND. destruct e as [ok|s' c|s'|s' lost|t|s'|i ok| | | |]; cbn [step]; try congruence.
  - destruct (own st) as [ops| | | | | | |] eqn:O; auto. now contradiction (B ops).
  - destruct (phases st s'); auto.
  - destruct (phases st s'); auto. destruct (backlog st s'); auto.
  - destruct (phases st s'); auto. destruct (backlog st s'); auto. destruct lost; auto.
  - destruct (phases st Main); auto.
  - destruct (phases st s') as [| |n|]; auto. destruct (recv_ready (mgr st) n); auto.
  - destruct (nth_error (jobs st) i) as [[j []]|]; auto.
  - destruct (own st) eqn:O; auto.
Qed.
Lemma joins_stop h : forall st, inv st -> closing st -> (forall s, phases st s = Ended) -> ~ In DropQueue h -> ~ In Shutdown h ->
  (forall l, own st = Joining l -> length l <= joins h) -> own (run step st h) = Stopped.
Proof.
  induction h as [|e h IH]; intros st I C P ND NS L.
  - destruct C as [[l O]|O]; [|exact O]. specialize (L l O). unfold inv in I. rewrite O in I. destruct l; [|cbn in L; lia]. now destruct I as (_ & _ & _ & _ & _ & N & _).
  - change (run step st (e :: h)) with (run step (step st e) h).
    assert (C' : closing (step st e)) by (apply closing_step; auto; [intros ->; apply ND; now left|intros ->; apply NS; now left]).
    apply IH; auto; [now apply inv_step|intros s; apply ended_stays; auto; now apply closing_started|intros Q; apply ND; now right|intros Q; apply NS; now right|].
    intros l O. assert (J : e = Join \/ e <> Join) by (destruct e; auto; right; discriminate). destruct J as [->|NJ].
    + cbn [step] in O. destruct C as [[l0 O0]|O0]; [|rewrite O0 in O; congruence]. specialize (L l0 O0). rewrite O0 in O.
      destruct l0 as [|s0 rest]; [unfold inv in I; rewrite O0 in I; now destruct I as (_ & _ & _ & _ & _ & N & _)|]. rewrite P in O. cbn [with_own own] in O. unfold joins in *. cbn [length filter] in L.
      destruct rest; [discriminate|]. injection O as <-. cbn [length] in *. lia.
    + rewrite own_frame2 in O; auto; [|now apply closing_started|intros ->; apply NS; now left|intros ->; apply ND; now left]. specialize (L l O). unfold joins in *. cbn [filter] in L. destruct e; auto; congruence.
Qed.

(* ---- dropped ---- *)
Definition gone (st : state) : Prop := own st = Dropped \/ own st = StartPanicked.
Lemma gone_step st e : gone st -> gone (step st e).
Proof.
  intros C. unfold gone in *. destruct e as [ok|s' c|s'|s' lost|t|s'|i ok| | | |]; cbn [step].
  - destruct C as [C|C]; rewrite C; auto.
  - destruct (phases st s'); auto.
  - destruct (phases st s'); auto. destruct (backlog st s'); auto.
  - destruct (phases st s'); auto. destruct (backlog st s'); auto. destruct lost; auto.
  - destruct (phases st Main); auto.
  - destruct (phases st s') as [| |n|]; auto. destruct (recv_ready (mgr st) n); auto.
  - destruct (nth_error (jobs st) i) as [[j []]|]; auto.
  - destruct C as [C|C]; rewrite C; auto.
  - destruct C as [C|C]; rewrite C; auto.
  - destruct C as [C|C]; rewrite C; auto.
  - destruct C as [C|C]; rewrite C; auto.
Qed.
Lemma gone_phase st e s : gone st -> phases st s = Ended \/ phases st s = Unbound -> phases (step st e) s = Ended \/ phases (step st e) s = Unbound.
Proof.
  intros C [P|P]; [left; apply ended_stays; auto; destruct C as [C|C]; rewrite C; discriminate|].
  destruct e as [ok|s' c|s'|s' lost|t|s'|i ok| | | |]; cbn [step]; auto.
  - destruct C as [C|C]; rewrite C; auto.
  - destruct (phases st s'); auto.
  - destruct (phases st s'); auto. destruct (backlog st s'); auto.
  - destruct (phases st s'); auto. destruct (backlog st s'); auto. destruct lost; auto.
  - destruct (phases st Main); auto.
  - destruct (phases st s') as [| |n|] eqn:Q; auto. destruct (recv_ready (mgr st) n); auto. cbn. rewrite set_other; auto. congruence.
  - destruct (nth_error (jobs st) i) as [[j []]|]; auto.
  - destruct C as [C|C]; rewrite C; auto.
  - destruct C as [C|C]; rewrite C; auto.
  - destruct C as [C|C]; rewrite C; auto.
  - destruct C as [C|C]; rewrite C; auto.
Qed.
Lemma gone_sees h : forall st s, inv st -> gone st -> (In (See s) h \/ phases st s = Ended \/ phases st s = Unbound) -> phases (run step st h) s = Ended \/ phases (run step st h) s = Unbound.
Proof.
  induction h as [|e h IH]; intros st s I G H.
  - destruct H as [[]|H]; exact H.
  - change (run step st (e :: h)) with (run step (step st e) h). apply IH; [now apply inv_step|now apply gone_step|]. destruct H as [[->|H]|H]; auto.
    + right. cbn [step]. unfold inv in I. destruct G as [O|O]; rewrite O in I; destruct I as [A U].
      * destruct (U s) as [Q|Q]; rewrite Q; auto. unfold recv_ready. rewrite A. rewrite orb_true_r. left. apply set_same.
      * destruct (U s) as [Q|[Q|Q]]; rewrite Q; auto. unfold recv_ready. rewrite A. rewrite orb_true_r. left. apply set_same.
    + right. now apply gone_phase.
Qed.

(* ---- handlers do not matter ---- *)
Definition same (a b : state) : Prop := phases a = phases b /\ backlog a = backlog b /\ mgr a = mgr b /\ own a = own b /\ log a = log b.
Lemma same_close a b s : same a b -> same (close a s) (close b s).
Proof. unfold same, close. cbn. intros (-> & -> & -> & -> & ->). auto 10. Qed.
Lemma same_cib a b s : same a b -> same (close_if_bound a s) (close_if_bound b s).
Proof. intros H. unfold close_if_bound. destruct H as (E & H). rewrite <- E. assert (same a b) by (split; auto). destruct (phases a s); auto. now apply same_close. Qed.
Lemma same_step a b e : same a b -> same (step a e) (step b e).
Proof.
  intros H. pose proof H as (P & B & M & O & L). destruct e as [ok|s' c|s'|s' lost|t|s'|i ok| | | |]; cbn [step].
  - rewrite <- O. destruct (own a) as [[|[s|s] ops]| | | | | | |]; auto.
    + destruct ok; [unfold same; cbn; rewrite P, B, M, L; auto 10|]. unfold start_panics. pose proof (same_cib _ _ Work (same_cib _ _ Negotiator (same_cib _ _ Main H))) as (Q1 & Q2 & Q3 & Q4 & Q5). unfold same. cbn zeta. cbn [with_own with_mgr phases backlog mgr own log]. rewrite Q1, Q2, Q3, Q5. auto 10.
    + rewrite <- M. destruct (add_receiver (mgr a)). unfold same. cbn. rewrite P, B, L. auto 10.
  - rewrite <- P, <- B. destruct (phases a s'); unfold same; cbn; rewrite P, B, M, O, L; auto 10.
  - rewrite <- P, <- B. destruct (phases a s'); auto. destruct (backlog a s'); auto. unfold same; cbn; rewrite P, B, M, O, L; auto 10.
  - rewrite <- P, <- B. destruct (phases a s'); auto. destruct (backlog a s'); auto. destruct lost; auto. unfold same; cbn; rewrite P, B, M, O, L; auto 10.
  - rewrite <- P. destruct (phases a Main); auto. unfold same; cbn; rewrite P, B, M, O, L; auto 10.
  - rewrite <- P, <- M. destruct (phases a s') as [| |n|]; auto. destruct (recv_ready (mgr a) n); auto. now apply same_close.
  - destruct (nth_error (jobs a) i) as [[j []]|], (nth_error (jobs b) i) as [[j' []]|]; exact H.
  - rewrite <- O, <- M. destruct (own a) eqn:Oa; auto. unfold same; cbn; rewrite P, B, L; repeat split; congruence.
  - rewrite <- O, <- M. assert (R : receivers a = receivers b) by (unfold receivers; now rewrite P). rewrite <- R. destruct (own a); auto; destruct (m_shutdown (mgr a)); try destruct (Nat.eqb (receivers a) 0); unfold same; cbn; rewrite P, B, L, ?M; auto 10.
  - rewrite <- O, <- P. destruct (own a) as [ops| | |[|s0 rest]| | | |]; auto. destruct (phases a s0); auto. unfold same; cbn; rewrite P, B, M, L; auto 10.
  - rewrite <- O, <- M. destruct (own a); auto; unfold same; cbn; rewrite P, B, L; auto 10.
Qed.
Lemma job_same st i ok : same (step st (JobEnds i ok)) st.
Proof. cbn [step]. destruct (nth_error (jobs st) i) as [[j []]|]; repeat split. Qed.
Lemma jobs_erased h : forall a b, same a b -> same (run step a h) (run step b (filter (fun e => negb (about_job e)) h)).
Proof.
  induction h as [|e h IH]; intros a b H; [exact H|]. change (run step a (e :: h)) with (run step (step a e) h). cbn [filter]. destruct (about_job e) eqn:E; cbn [negb].
  - apply IH. destruct e as [| | | | | |i ok| | | |]; try discriminate. pose proof (job_same a i ok) as (A1 & A2 & A3 & A4 & A5). destruct H as (B1 & B2 & B3 & B4 & B5). unfold same. rewrite A1, A2, A3, A4, A5. auto 10.
  - apply (IH (step a e) (step b e)). now apply same_step.
Qed.
