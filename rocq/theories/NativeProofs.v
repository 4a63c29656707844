(* Proofs for C77: a weakest-precondition calculus for programs that ask, and one invariant
   for the program of a runner. *)
From Coq Require Import List Arith Bool String ZArith Lia.
From Verif Require Import NativeModel NativeSpec.
Import ListNotations.
Open Scope list_scope.

(* ------------------------------------------------------------------ *)
Fixpoint wp {A} (p : program A) (W : list event -> effect -> Prop) (X : list event -> Prop)
  (Q : A -> list event -> Prop) (h : list event) : Prop :=
  match p with
  | Return a => Q a h
  | Panic => X h
  | Ask e k => W h e /\ forall a, wp (k a) W X Q (h ++ [Ev e a])
  end.

Lemma wp_bind {A B} (p : program A) (f : A -> program B) W X Q : forall h,
  wp p W X (fun a h => wp (f a) W X Q h) h -> wp (bind p f) W X Q h.
Proof.
  induction p as [a | | e k IH]; intros h H; cbn in *; [exact H | exact H |].
  destruct H as [H1 H2]; split; [exact H1 | intros a; apply IH, H2].
Qed.

Lemma wp_mono {A} (p : program A) W X (Q Q' : A -> list event -> Prop) : forall h,
  wp p W X Q h -> (forall a h, Q a h -> Q' a h) -> wp p W X Q' h.
Proof.
  induction p as [a | | e k IH]; intros h H M; cbn in *; [auto | auto |].
  destruct H as [H1 H2]; split; [exact H1 | intros a; apply IH; auto].
Qed.

Lemma wp_sound {A} (p : program A) W X Q : forall h tr o,
  wp p W X Q h -> executes p tr o ->
  match o with Waiting e => W (h ++ tr) e | Done a => Q a (h ++ tr) | Panicked => X (h ++ tr) end.
Proof.
  induction p as [a | | e k IH]; intros h tr o H E; cbn in *.
  - destruct E as [-> ->]. rewrite app_nil_r. exact H.
  - destruct E as [-> ->]. rewrite app_nil_r. exact H.
  - destruct H as [H1 H2]. destruct E as [[-> ->] | (a & tr' & -> & E)].
    + rewrite app_nil_r. exact H1.
    + specialize (IH a _ _ _ (H2 a) E). rewrite <- app_assoc in IH. exact IH.
Qed.

(* everything that was asked was asked rightly *)
Lemma wp_rules {A} (p : program A) W X Q : forall h tr o,
  wp p W X Q h -> executes p tr o ->
  forall tr1 e a tr2, tr = tr1 ++ Ev e a :: tr2 -> W (h ++ tr1) e.
Proof.
  induction p as [a | | e k IH]; intros h tr o H E tr1 e' a' tr2 T; cbn in *.
  - destruct E as [-> _]. destruct tr1; discriminate.
  - destruct E as [-> _]. destruct tr1; discriminate.
  - destruct H as [H1 H2]. destruct E as [[-> _] | (a & tr' & -> & E)]; [destruct tr1; discriminate|].
    destruct tr1 as [|x tr1]; cbn in T.
    + injection T as T1 T2 T3. subst. rewrite app_nil_r. exact H1.
    + injection T as <- T. specialize (IH a _ _ _ (H2 a) E tr1 e' a' tr2 T).
      rewrite <- app_assoc in IH. exact IH.
Qed.

(* ------------------------------------------------------------------ *)
Lemma started_snoc h x : started (h ++ [x]) = started h ++ ev_started x.
Proof. unfold started. rewrite flat_map_app. cbn. now rewrite app_nil_r. Qed.
Lemma gone_snoc p h x : gone p (h ++ [x]) = gone p h || ends p x.
Proof. unfold gone. rewrite existsb_app. cbn. now rewrite orb_false_r. Qed.
Lemma statuses_snoc p h x : statuses p (h ++ [x]) = statuses p h ++ ev_status p x.
Proof. unfold statuses. rewrite flat_map_app. cbn. now rewrite app_nil_r. Qed.
Lemma told_snoc p h x : told p (h ++ [x]) = told p h ++ ev_told p x.
Proof. unfold told. rewrite flat_map_app. cbn. now rewrite app_nil_r. Qed.
Lemma said_snoc p h x : said p (h ++ [x]) = said p h ++ ev_said p x.
Proof. unfold said. rewrite flat_map_app. cbn. now rewrite app_nil_r. Qed.
Lemma ready_snoc p h x : ready p (h ++ [x]) = ready p h || ev_ready p x.
Proof. unfold ready. rewrite existsb_app. cbn. now rewrite orb_false_r. Qed.
Lemma given_snoc h x : given (h ++ [x]) = given h ++ ev_given x.
Proof. unfold given. rewrite flat_map_app. cbn. now rewrite app_nil_r. Qed.
Lemma answered_snoc h x : answered (h ++ [x]) = answered h ++ ev_answered x.
Proof. unfold answered. rewrite flat_map_app. cbn. now rewrite app_nil_r. Qed.
Lemma reports_snoc h x : reports (h ++ [x]) = reports h ++ ev_report x.
Proof. unfold reports. rewrite flat_map_app. cbn. now rewrite app_nil_r. Qed.
Lemma notified_snoc h x : notified (h ++ [x]) = notified h + List.length (ev_notified x).
Proof. unfold notified. rewrite flat_map_app, app_length. cbn. now rewrite app_nil_r. Qed.
Lemma manifests_snoc h x : manifests (h ++ [x]) = manifests h ++ ev_manifest x.
Proof. unfold manifests. rewrite flat_map_app. cbn. now rewrite app_nil_r. Qed.
Lemma generated_snoc h x : generated (h ++ [x]) = generated h ++ ev_generated x.
Proof. unfold generated. rewrite flat_map_app. cbn. now rewrite app_nil_r. Qed.
Lemma inits_snoc h x : inits (h ++ [x]) = inits h ++ ev_init x.
Proof. unfold inits. rewrite flat_map_app. cbn. now rewrite app_nil_r. Qed.
Lemma outputs_snoc h x : outputs (h ++ [x]) = outputs h ++ ev_output x.
Proof. unfold outputs. rewrite flat_map_app. cbn. now rewrite app_nil_r. Qed.
Lemma smooth_snoc h x : forallb smooth (h ++ [x]) = forallb smooth h && smooth x.
Proof. rewrite forallb_app. cbn. now rewrite andb_true_r. Qed.

Ltac snoc := repeat (rewrite started_snoc || rewrite gone_snoc || rewrite statuses_snoc || rewrite told_snoc
  || rewrite said_snoc || rewrite ready_snoc || rewrite given_snoc || rewrite answered_snoc || rewrite reports_snoc
  || rewrite notified_snoc || rewrite manifests_snoc || rewrite generated_snoc || rewrite inits_snoc
  || rewrite outputs_snoc || rewrite smooth_snoc);
  cbn [ev_started ends ev_status ev_told ev_said ev_ready ev_given ev_answered ev_report ev_notified ev_manifest
       ev_generated ev_init ev_output smooth List.length];
  rewrite ?app_nil_r, ?orb_false_r, ?andb_true_r, ?Nat.add_0_r.
Ltac snoc_in H := repeat (rewrite started_snoc in H || rewrite gone_snoc in H || rewrite statuses_snoc in H || rewrite told_snoc in H
  || rewrite said_snoc in H || rewrite ready_snoc in H || rewrite given_snoc in H || rewrite answered_snoc in H || rewrite reports_snoc in H
  || rewrite notified_snoc in H || rewrite manifests_snoc in H || rewrite generated_snoc in H || rewrite inits_snoc in H
  || rewrite outputs_snoc in H || rewrite smooth_snoc in H);
  cbn [ev_started ends ev_status ev_told ev_said ev_ready ev_given ev_answered ev_report ev_notified ev_manifest
       ev_generated ev_init ev_output smooth List.length] in H;
  rewrite ?app_nil_r, ?orb_false_r, ?andb_true_r, ?Nat.add_0_r in H.

Lemma joined_snoc l c : joined (l ++ [c]) = append_captured (joined l) c.
Proof. unfold joined, append_captured. cbn. rewrite !flat_map_app. cbn. now rewrite !app_nil_r. Qed.
Lemma joined_one c : joined [c] = c.
Proof. destruct c. unfold joined. cbn. now rewrite !app_nil_r. Qed.

(* ------------------------------------------------------------------ *)
Section Runner.
Variable c : params.
Variable asked : bool.
Variable all : list test.     (* the tests that will be received *)
Variable fetched : bool.
Local Notation first := (first_tester asked).

(* what must hold when something is asked *)
Definition rules (h : list event) (e : effect) : Prop :=
  match e with
  | Spawn p l =>
      started h = seq 0 p /\ (forall q, q < p -> gone q h = true) /\
      l_retry l = Nat.ltb first p /\ l_kill_on_drop l = true /\
      (exists h' addr, h = h' ++ [Ev Bind (Some addr)] /\ l_env l = command_env c addr (asked && Nat.eqb p 0))
  | Write p m =>
      started h = seq 0 (p + 1) /\ first <= p /\ told p h = [] /\ gone p h = false /\ ready p h = false /\
      (exists s, said p h = [s] /\ supported (sp_version s) = true) /\
      match m with
      | InitMessage meta false => inits h = [Some (Context meta)]
      | InitMessage meta true => meta = default_meta /\ exists b, inits h = [Some (AlreadyCompleted b)]
      | TestCase _ => False
      end
  | ReadInitSuccess p => exists meta, told p h = [InitMessage meta false]
  | RunTest p t =>
      started h = seq 0 (p + 1) /\ first <= p /\ gone p h = false /\ ready p h = true /\
      (exists s, said p h = [s] /\ supported (sp_version s) = true) /\
      (exists meta works, inits h = [Some (Context meta)] /\ told p h = InitMessage meta false :: map TestCase works) /\
      (exists rest, all = map snd (given h) ++ t :: rest) /\
      (match rev (given h) with [] => p = first <-> t_run t = 1 | (q, u) :: _ => p = q <-> t_run t = t_run u end) /\
      notified h = 0
  | ReadManifest p => asked = true /\ p = 0 /\ told 0 h = [] /\ started h = [0] /\ generated h = []
  | SendManifest r =>
      asked = true /\ manifests h = [] /\ inits h = [] /\ given h = [] /\ notified h = 0 /\
      match r with
      | Manifest m s => generated h = [(0, MSuccess m)] /\ said 0 h = [s] /\ gone 0 h = true
      | TestRunnerError _ _ => True
      end
  | GetInit =>
      inits h = [] /\ given h = [] /\ notified h = 0 /\
      (if asked then exists m s, manifests h = [Manifest m s] else manifests h = [])
  | Report _ _ _ | NotifyAllRun => notified h = 0
  | _ => True
  end.

(* a panic needs something to have gone wrong with a process *)
Definition rough (h : list event) : Prop := forallb smooth h = false.

Definition derailed (h : list event) : Prop := rough h /\ inits h <> [].

Definition untouched (q : nat) (h : list event) : Prop :=
  told q h = [] /\ gone q h = false /\ ready q h = false /\ said q h = [] /\ statuses q h = [].

(* before process p is started *)
Definition before (p : nat) (h : list event) : Prop :=
  started h = seq 0 p /\ (forall q, q < p -> gone q h = true) /\ (forall q, p <= q -> untouched q h).

(* nothing of this is in an event *)
Definition quiet (x : event) : Prop :=
  ev_given x = [] /\ ev_answered x = [] /\ ev_report x = [] /\ ev_notified x = [] /\ ev_manifest x = [] /\
  ev_generated x = [] /\ ev_init x = [] /\ ev_output x = [].

Lemma seq_snoc p : seq 0 p ++ [p] = seq 0 (p + 1).
Proof. rewrite seq_app. reflexivity. Qed.

Lemma wp_new_runner manifest retry prev p h (X : list event -> Prop) (Q : state + runner_error -> list event -> Prop) :
  before p h -> retry = Nat.ltb first p -> manifest = asked && Nat.eqb p 0 ->
  (forall addr l info, supported (sp_version info) = true ->
     Q (inl {| s_proc := p; s_finished := false; s_previous := prev; s_info := info; s_for_manifest := manifest |})
       (((h ++ [Ev Bind (Some addr)]) ++ [Ev (Spawn p l) true]) ++ [Ev (Hello p) (HSaid info)])) ->
  (forall e suf, Forall quiet suf -> rough suf -> re_info e = None -> Q (inr e) (h ++ suf)) ->
  wp (new_native_runner c manifest retry prev p) rules X Q h.
Proof.
  intros (B1 & B2 & B3) -> -> QI QE. unfold new_native_runner. cbn [bind ask wp].
  split; [exact I|]. intros [addr|]; cbn [wp].
  2: { apply (QE _ [_]); [repeat constructor | reflexivity | reflexivity]. }
  cbn [bind ask wp]. split.
  { cbn [rules l_retry l_kill_on_drop l_env]. snoc. split; [exact B1|]. split.
    - intros q L. snoc. now apply B2.
    - split; [reflexivity|]. split; [reflexivity|]. do 2 eexists; split; reflexivity. }
  intros [|]; cbn [negb bind ask wp].
  2: { rewrite <- app_assoc. apply (QE _ ([_] ++ [_])); [repeat constructor | reflexivity | reflexivity]. }
  split; [exact I|]. intros r. destruct (checked_hello r) as [info | e] eqn:C.
  - cbn [wp]. destruct r as [| | s]; try discriminate. cbn in C.
    destruct (supported (sp_version s)) eqn:S; [|discriminate]. injection C as <-. apply QI, S.
  - assert (smooth (Ev (Hello p) r) = false) as R.
    { destruct r as [| | s]; try reflexivity. cbn in *. destruct (supported _); [discriminate | reflexivity]. }
    assert (quiet (Ev (Hello p) r)) as K by (repeat split).
    cbn [handle_connection_error bind ask wp]. split; [exact I|].
    rewrite <- !app_assoc. 
    intros [[o|]|]; cbn [bind ask wp]; rewrite <- ?app_assoc; cbn [List.app];
      try (split; [exact I|]; intros k; rewrite <- ?app_assoc; cbn [List.app]);
      (apply QE; [repeat (constructor; [first [exact K | repeat split]|]); constructor
                | unfold rough; cbn [forallb]; rewrite R; cbn; now rewrite ?andb_false_r | reflexivity]).
Qed.

Definition report_of (a : test * nat) : nat * nat * reported := (t_work (fst a), t_run (fst a), Results (snd a)).
Definition captures (h : list event) : list captured := skipn first (map snd (outputs h)).

(* the books of the current process *)
Record books (h : list event) (hd : handle) : Prop := {
  i_next : h_next hd = s_proc (h_state hd) + 1;
  i_started : started h = seq 0 (s_proc (h_state hd) + 1);
  i_waited : forall q, q < s_proc (h_state hd) -> exists st, statuses q h = [st];
  i_said : said (s_proc (h_state hd)) h = [s_info (h_state hd)];
  i_supported : supported (sp_version (s_info (h_state hd))) = true;
  i_unfinished : s_finished (h_state hd) = false;
  i_first : first <= s_proc (h_state hd);
  i_outs : map fst (outputs h) = seq 0 (s_proc (h_state hd));
  i_prev : s_previous (h_state hd) = match captures h with [] => None | l => Some (joined l) end;
  i_manifests : if asked then exists m s, manifests h = [Manifest m s] else manifests h = [] }.

(* and it runs *)
Record live (h : list event) (hd : handle) : Prop := {
  i_books : books h hd;
  i_gone : forall q, q < s_proc (h_state hd) -> gone q h = true;
  i_fresh : forall q, s_proc (h_state hd) < q -> untouched q h;
  i_alive : gone (s_proc (h_state hd)) h = false;
  i_unwaited : statuses (s_proc (h_state hd)) h = [];
  i_unnotified : notified h = 0 }.

Record testing (meta : nat) (done : list test) (h : list event) (hd : handle) : Prop := {
  i_live : live h hd;
  i_init : inits h = [Some (Context meta)];
  i_told : exists works, told (s_proc (h_state hd)) h = InitMessage meta false :: map TestCase works;
  i_ready : ready (s_proc (h_state hd)) h = true;
  i_given : map snd (given h) = done;
  i_answered : map fst (answered h) = done;
  i_reports : reports h = map report_of (answered h);
  i_last : match rev (given h) with
           | [] => s_proc (h_state hd) = first /\ h_run hd = 1
           | (q, u) :: _ => q = s_proc (h_state hd) /\ t_run u = h_run hd
           end }.

(* every test was reported, with the answer of its process, or as an internal error; and the
   queue notified *)
Definition all_reported (h : list event) : Prop :=
  notified h = 1 /\
  exists run failed, reports h = map report_of (answered h) ++ map (fun w => (w, run, InternalError)) failed /\
    map t_work (map fst (answered h)) ++ failed = map t_work all.

Definition after_tests (r : res Z) (h : list event) (hd : handle) : Prop :=
  (exists meta, inits h = [Some (Context meta)]) /\
  ((rough h /\ s_finished (h_state hd) = true) \/ books h hd) /\
  match r with
  | Ok code =>
      books h hd /\ (exists st, statuses (s_proc (h_state hd)) h = [st] /\ code = exit_code st) /\
      notified h = 1 /\ map snd (given h) = all /\ map fst (answered h) = all /\ reports h = map report_of (answered h)
  | Err _ => rough h \/ all_reported h
  end.

Lemma rough_snoc h x : rough (h ++ [x]) <-> rough h \/ smooth x = false.
Proof. unfold rough. rewrite smooth_snoc. destruct (forallb smooth h), (smooth x); cbn; intuition congruence. Qed.
Lemma rough_app h k : rough (h ++ k) <-> rough h \/ rough k.
Proof. unfold rough. rewrite forallb_app. destruct (forallb smooth h), (forallb smooth k); cbn; intuition congruence. Qed.

Lemma items_cons m ms : items (m :: ms) = match m with Item t => [t] | FlushProcessed => [] end ++ items ms.
Proof. reflexivity. Qed.
Lemma flushed_items ms : flushed ms = map t_work (items ms).
Proof.
  induction ms as [|[t|] ms IH]; [reflexivity | |]; unfold flushed, items in *; cbn; [f_equal|]; exact IH.
Qed.

Lemma captures_snoc h x : captures (h ++ [x]) = skipn first (map snd (outputs h) ++ map snd (ev_output x)).
Proof. unfold captures. now rewrite outputs_snoc, map_app. Qed.


Definition away (q : nat) (x : event) : Prop :=
  ev_told q x = [] /\ ends q x = false /\ ev_ready q x = false /\ ev_said q x = [] /\ ev_status q x = [].

Lemma untouched_snoc q h x : untouched q h -> away q x -> untouched q (h ++ [x]).
Proof.
  intros (a & b & d & e & f) (A & B & D & E & F). unfold untouched. snoc.
  rewrite A, B, D, E, F, a, b, d, e, f. repeat split.
Qed.

Lemma books_same h hd x : books h hd ->
  ev_started x = [] -> ev_output x = [] -> ev_manifest x = [] -> ev_said (s_proc (h_state hd)) x = [] ->
  (forall q, q < s_proc (h_state hd) -> ev_status q x = []) ->
  books (h ++ [x]) hd.
Proof.
  intros B E1 E2 E3 E4 E5. destruct B as [b1 b2 b3 b4 b5 b6 b7 b8 b9 b10].
  split; try assumption.
  - snoc. now rewrite E1, app_nil_r.
  - intros q L. rewrite statuses_snoc, E5 by assumption. rewrite app_nil_r. auto.
  - rewrite said_snoc, E4. now rewrite app_nil_r.
  - rewrite outputs_snoc, E2, app_nil_r. assumption.
  - rewrite captures_snoc, E2, app_nil_r. assumption.
  - rewrite manifests_snoc, E3, app_nil_r. assumption.
Qed.

Ltac eqb := repeat match goal with
  | |- context[Nat.eqb ?a ?a] => rewrite Nat.eqb_refl
  | |- context[Nat.eqb ?a ?b] => replace (Nat.eqb a b) with false by (symmetry; apply Nat.eqb_neq; lia)
  end.

Lemma live_same h hd x : live h hd ->
  ev_started x = [] -> ev_output x = [] -> ev_manifest x = [] -> ev_said (s_proc (h_state hd)) x = [] ->
  (forall q, q <= s_proc (h_state hd) -> ev_status q x = []) ->
  (forall q, s_proc (h_state hd) < q -> away q x) ->
  ends (s_proc (h_state hd)) x = false -> ev_notified x = [] ->
  live (h ++ [x]) hd.
Proof.
  intros B E1 E2 E3 E4 E5 E6 E7 E8. destruct B as [b1 b2 b3 b4 b5 b6].
  split.
  - apply books_same; auto using Nat.lt_le_incl.
  - intros q L. snoc. now rewrite b2.
  - intros q L. apply untouched_snoc; auto.
  - rewrite gone_snoc, b4, E7. reflexivity.
  - rewrite statuses_snoc, b5, E5 by apply le_n. reflexivity.
  - rewrite notified_snoc, E8. cbn. lia.
Qed.

(* the current process is ready for tests *)
Record serving (meta : nat) (done : list test) (h : list event) (hd : handle) : Prop := {
  v_live : live h hd;
  v_init : inits h = [Some (Context meta)];
  v_told : exists works, told (s_proc (h_state hd)) h = InitMessage meta false :: map TestCase works;
  v_ready : ready (s_proc (h_state hd)) h = true;
  v_given : map snd (given h) = done;
  v_answered : map fst (answered h) = done;
  v_reports : reports h = map report_of (answered h) }.

Definition last_given (h : list event) (hd : handle) : Prop :=
  match rev (given h) with
  | [] => s_proc (h_state hd) = first /\ h_run hd = 1
  | (q, u) :: _ => q = s_proc (h_state hd) /\ t_run u = h_run hd
  end.

Definition failing (r : error) (meta : nat) (h : list event) (hd : handle) : Prop :=
  inits h = [Some (Context meta)] /\ (s_finished (h_state hd) = true \/ books h hd) /\ rough h.

(* only these asked for more than an answer from the current process *)
Lemma quiet_app (F : event -> list nat) h suf : Forall (fun x => F x = []) suf -> flat_map F (h ++ suf) = flat_map F h.
Proof.
  intros Q. rewrite flat_map_app. induction Q as [|x l E Q IH]; cbn; [now rewrite app_nil_r|]. rewrite E. exact IH.
Qed.
Lemma quiet_inits h suf : Forall quiet suf -> inits (h ++ suf) = inits h.
Proof.
  intros Q. unfold inits. rewrite flat_map_app. induction Q as [|x l E Q IH]; cbn; [now rewrite app_nil_r|].
  destruct E as (_ & _ & _ & _ & _ & _ & -> & _). exact IH.
Qed.

Lemma quiet_all h suf : Forall quiet suf ->
  inits (h ++ suf) = inits h /\ given (h ++ suf) = given h /\ reports (h ++ suf) = reports h /\
  notified (h ++ suf) = notified h /\ manifests (h ++ suf) = manifests h.
Proof.
  intros Q. split; [now apply quiet_inits|]. unfold given, reports, notified, manifests. rewrite !flat_map_app.
  induction Q as [|x l E Q IH]; cbn; [now rewrite !app_nil_r|].
  destruct E as (-> & _ & -> & -> & -> & _). exact IH.
Qed.

Lemma reconcile_wp meta done h hd run (Q : handle * res unit -> list event -> Prop) (X : list event -> Prop) :
  serving meta done h hd -> last_given h hd ->
  (forall h' hd', serving meta done h' hd' -> h_run hd' = run ->
     match rev (given h') with [] => s_proc (h_state hd') = first <-> run = 1
                             | (q, u) :: _ => s_proc (h_state hd') = q <-> run = t_run u end ->
     Q (hd', Ok tt) h') ->
  (forall e h' hd', failing e meta h' hd' -> Q (hd', Err e) h') ->
  wp (reconcile_run_number c hd run meta) (rules) X Q h.
Proof.
  intros V L QI QE. unfold reconcile_run_number.
  destruct (Nat.eqb_spec run (h_run hd)) as [-> | N]; cbn [wp].
  { apply QI; [exact V | reflexivity|]. unfold last_given in L. destruct (rev (given h)) as [|[q u] l]; cbn in *;
      destruct L as [L1 L2]; split; intros; congruence. }
  destruct V as [VL V2 V3 V4 V5 V6 V7].
  set (p := s_proc (h_state hd)) in *.
  cbn [bind ask wp]. split; [exact I|]. intros [|]; cbn [negb bind ask wp].
  2: { apply QE. split; [snoc; exact V2|]. split.
       - right. apply books_same; try reflexivity. apply (i_books _ _ VL).
       - apply rough_snoc. now right. }
  split; [exact I|]. intros [st|]; cbn [wp].
  2: { apply QE. split; [snoc; exact V2|]. split.
       - right. apply books_same; try reflexivity. apply books_same; try reflexivity. apply (i_books _ _ VL).
       - apply rough_snoc. now right. }
  assert (s_finished (h_state hd) = false) as F by apply (i_unfinished _ _ (i_books _ _ VL)).
  unfold finish. rewrite F. cbn [bind ask wp]. split; [exact I|].
  intros [out|]; cbn [wp bind].
  2: { apply QE. split; [snoc; exact V2|]. split; [left; reflexivity | apply rough_snoc; now right]. }
  apply wp_bind. set (h3 := ((h ++ _) ++ _) ++ _).
  set (prev := match s_previous _ with Some o => append_captured o out | None => out end).
  cbn [with_state h_next].
  assert (h_next hd = p + 1) as NX by apply (i_next _ _ (i_books _ _ VL)). rewrite NX.
  assert (gone p h3 = true) as G. { unfold h3. snoc. fold p. eqb. now rewrite orb_true_r. }
  assert (forall q, q < p -> gone q h3 = true) as G2.
  { intros q Lq. unfold h3. snoc. fold p. now rewrite (i_gone _ _ VL q Lq). }
  assert (first <= p) as FI by apply (i_first _ _ (i_books _ _ VL)).
  eapply wp_new_runner.
  - split; [|split].
    + unfold h3. snoc. rewrite (i_started _ _ (i_books _ _ VL)). reflexivity.
    + intros q Lq. destruct (Nat.eq_dec q p) as [-> | Nq]; [exact G | apply G2; lia].
    + intros q Lq. unfold h3. repeat apply untouched_snoc; try (repeat split; fail).
      * apply (i_fresh _ _ VL). fold p. lia.
      * repeat split; cbn; fold p; eqb; reflexivity.
  - symmetry. apply Nat.ltb_lt. lia.
  - replace (Nat.eqb (p + 1) 0) with false by (symmetry; apply Nat.eqb_neq; lia). now rewrite andb_false_r.
  - intros addr l info S. cbn [wp].
    set (hd' := {| h_run := run; h_state := _; h_next := _ |}).
    set (h6 := ((h3 ++ _) ++ _) ++ _).
    assert (books h6 hd') as B6.
    { split; cbn [hd' h_next h_state s_proc s_finished s_info s_previous].
      - lia.
      - unfold h6, h3. snoc. rewrite (i_started _ _ (i_books _ _ VL)). apply seq_snoc.
      - intros q Lq. unfold h6, h3. snoc. fold p. destruct (Nat.eq_dec q p) as [-> | Nq].
        + eqb. pose proof (i_unwaited _ _ VL) as UW. fold p in UW. rewrite UW. now eexists.
        + eqb. rewrite app_nil_r. apply (i_waited _ _ (i_books _ _ VL)). fold p. lia.
      - unfold h6, h3. snoc. fold p. eqb. 
        destruct (i_fresh _ _ VL (p + 1)) as (_ & _ & _ & E & _); [fold p; lia|]. now rewrite E.
      - exact S.
      - reflexivity.
      - lia.
      - unfold h6, h3. snoc. fold p. rewrite map_app, (i_outs _ _ (i_books _ _ VL)). apply seq_snoc.
      - unfold h6, h3, captures. snoc. rewrite map_app. cbn [map snd].
        assert (List.length (map snd (outputs h)) = p) as LN.
        { rewrite map_length, <- (map_length fst), (i_outs _ _ (i_books _ _ VL)). fold p. apply seq_length. }
        rewrite skipn_app. replace (first - List.length (map snd (outputs h))) with 0 by lia. cbn [skipn].
        unfold prev. cbn [with_state h_state s_previous set_finished].
        rewrite (i_prev _ _ (i_books _ _ VL)). unfold captures.
        destruct (skipn first (map snd (outputs h))) as [|o l'] eqn:K; cbn [List.app].
        + now rewrite joined_one.
        + rewrite <- joined_snoc. reflexivity.
      - unfold h6, h3. snoc. apply (i_manifests _ _ (i_books _ _ VL)). }
    assert (live h6 hd') as L6.
    { destruct (i_fresh _ _ VL (p + 1)) as (E1 & E2 & E3 & E4 & E5); [fold p; lia|].
      split; [exact B6 | | | | |]; cbn [hd' h_state s_proc].
      - intros q Lq. unfold h6. snoc. destruct (Nat.eq_dec q p) as [-> | Nq]; [now rewrite G | now rewrite G2 by lia].
      - intros q Lq. unfold h6, h3. repeat apply untouched_snoc; try (repeat split; fail).
        + apply (i_fresh _ _ VL). fold p. lia.
        + repeat split; cbn; fold p; eqb; reflexivity.
        + repeat split; cbn; fold p; eqb; reflexivity.
      - unfold h6, h3. snoc. fold p. eqb. now rewrite E2.
      - unfold h6, h3. snoc. fold p. eqb. now rewrite E5.
      - unfold h6, h3. snoc. apply (i_unnotified _ _ VL). }
    assert (told (p + 1) h6 = []) as T6.
    { unfold h6, h3. snoc. apply (i_fresh _ _ VL (p + 1)). fold p; lia. }
    assert (ready (p + 1) h6 = false) as R6.
    { unfold h6, h3. snoc. apply (i_fresh _ _ VL (p + 1)). fold p; lia. }
    assert (inits h6 = [Some (Context meta)]) as I6 by (unfold h6, h3; snoc; exact V2).
    assert (given h6 = given h /\ answered h6 = answered h /\ reports h6 = reports h) as (GV & AN & RP)
      by (unfold h6, h3; snoc; auto).
    clearbody h6 h3.
    unfold send_init_message. cbn [bind ask wp hd' h_state s_proc]. split.
    { cbn [rules]. split; [apply (i_started _ _ B6)|]. split; [lia|]. split; [exact T6|].
      split; [apply (i_alive _ _ L6)|]. split; [exact R6|]. split; [|exact I6].
      exists info. split; [apply (i_said _ _ B6) | exact S]. }
    assert (forall ok, live (h6 ++ [Ev (Write (p + 1) (InitMessage meta false)) ok]) hd') as L7.
    { intros ok. apply live_same; try reflexivity; [exact L6|]. intros q Lq. cbn in Lq. repeat split. cbn. eqb. reflexivity. }
    intros [|]; cbn [negb bind ask wp].
    2: { apply QE. split; [snoc; exact I6|]. split; [right; apply L7 | apply rough_snoc; now right]. }
    split; [eexists; snoc; rewrite T6; now eqb|].
    assert (forall ok, live ((h6 ++ [Ev (Write (p + 1) (InitMessage meta false)) true]) ++ [Ev (ReadInitSuccess (p + 1)) ok]) hd') as L8.
    { intros ok. apply live_same; try reflexivity; [apply L7|]. intros q Lq. cbn in Lq. repeat split. cbn.
      destruct ok; eqb; reflexivity. }
    intros [|]; cbn [bind ask wp].
    2: { apply QE. split; [snoc; exact I6|]. split; [right; apply L8 | apply rough_snoc; now right]. }
    apply QI; [| reflexivity |].
    + split; [apply L8 | snoc; exact I6 | | | | |]; cbn [hd' h_state s_proc].
      * exists []. snoc. rewrite T6. now eqb.
      * snoc. rewrite R6. now eqb.
      * snoc. now rewrite GV.
      * snoc. now rewrite AN.
      * snoc. now rewrite AN, RP.
    + rewrite !given_snoc. cbn [ev_given]. rewrite !app_nil_r, GV. cbn [hd' h_state s_proc].
      unfold last_given in L. fold p in L. destruct (rev (given h)) as [|[q u] l']; destruct L as [L1 L2]; split; intros E; try lia; congruence.
  - intros e suf QS RS _. cbn [wp]. apply QE. split; [|split].
    + rewrite quiet_inits by exact QS. unfold h3. snoc. exact V2.
    + left. reflexivity.
    + apply rough_app. now right.
Qed.

Definition rep (run w : nat) : event := Ev (Report w run InternalError) tt.

Lemma report_failures_wp run X (Q : unit -> list event -> Prop) : forall works h,
  notified h = 0 -> Q tt (h ++ map (rep run) works) -> wp (report_failures run works) rules X Q h.
Proof.
  induction works as [|w ws IH]; intros h N H; cbn [report_failures map] in *.
  - now rewrite app_nil_r in H.
  - cbn [bind ask wp]. split; [exact N|]. intros []. apply IH; [snoc; exact N|].
    rewrite <- app_assoc. exact H.
Qed.

Lemma reps_facts run works hd : forall h,
  (books h hd -> books (h ++ map (rep run) works) hd) /\
  inits (h ++ map (rep run) works) = inits h /\ answered (h ++ map (rep run) works) = answered h /\
  given (h ++ map (rep run) works) = given h /\ notified (h ++ map (rep run) works) = notified h /\
  reports (h ++ map (rep run) works) = reports h ++ map (fun w => (w, run, InternalError)) works /\
  forallb smooth (h ++ map (rep run) works) = forallb smooth h.
Proof.
  induction works as [|w ws IH]; intros h; cbn [map].
  - rewrite !app_nil_r. split; [auto|]. repeat split.
  - assert (h ++ rep run w :: map (rep run) ws = (h ++ [rep run w]) ++ map (rep run) ws) as -> by now rewrite <- app_assoc.
    destruct (IH (h ++ [rep run w])) as (a & b & d & e & f & g & k). rewrite b, d, e, f, g, k. split.
    + intros B. apply a. now apply books_same.
    + snoc. unfold rep. cbn. rewrite <- app_assoc. rewrite ?app_nil_r, ?Nat.add_0_r, ?andb_true_r. repeat split; auto.
Qed.

Lemma native_failure_wp meta done h hd t rest e X :
  books h hd -> inits h = [Some (Context meta)] -> notified h = 0 ->
  map fst (answered h) = done -> reports h = map report_of (answered h) ->
  all = done ++ t :: items rest ->
  wp (native_failure hd t rest e) rules X (fun r h => after_tests (snd r) h (fst r)) h.
Proof.
  intros B IN NT AN RP AL. unfold native_failure. cbn [bind ask wp]. split; [exact I|]. intros st.
  apply wp_bind. apply report_failures_wp; [snoc; exact NT|].
  set (h1 := h ++ _). set (works := t_work t :: flushed rest).
  destruct (reps_facts (t_run t) works hd h1) as (F1 & F2 & F3 & F4 & F5 & F6 & F7).
  assert (books h1 hd) as B1.
  { unfold h1. apply books_same; try reflexivity; [exact B|]. intros q L. cbn. destruct st; [|reflexivity]. now eqb. }
  assert (inits h1 = inits h /\ answered h1 = answered h /\ given h1 = given h /\ notified h1 = notified h /\ reports h1 = reports h)
    as (E2 & E3 & E4 & E5 & E6) by (unfold h1; snoc; auto).
  rewrite E2 in F2. rewrite E3 in F3. rewrite E4 in F4. rewrite E5 in F5. rewrite E6 in F6.
  set (h2 := h1 ++ _) in *. clearbody h1 h2.
  cbn [bind ask wp]. split; [cbn; congruence|]. intros []. cbn [wp fst snd].
  split; [|split].
  - exists meta. snoc. congruence.
  - right. apply books_same; try reflexivity. now apply F1.
  - right. split; [snoc; rewrite F5, NT; reflexivity|]. exists (t_run t), works. snoc. rewrite F3, F6, RP. split; [reflexivity|].
    rewrite AN, AL, map_app. unfold works. cbn [map]. now rewrite flushed_items.
Qed.

Lemma run_tests_wp meta X : forall msgs done h hd,
  serving meta done h hd -> last_given h hd -> all = done ++ items msgs ->
  wp (run_tests c meta hd msgs) rules X (fun r h => after_tests (snd r) h (fst r)) h.
Proof.
  induction msgs as [|[t|] msgs IH]; intros done h hd V L AL; cbn [run_tests].
  - cbn in AL. rewrite app_nil_r in AL. subst done. destruct V as [VL V2 V3 V4 V5 V6 V7].
    cbn [bind ask wp]. split; [exact (i_unnotified _ _ VL)|]. intros [].
    set (p := s_proc (h_state hd)).
    assert (books (h ++ [Ev NotifyAllRun tt]) hd) as B1 by (apply books_same; try reflexivity; apply VL).
    assert (notified (h ++ [Ev NotifyAllRun tt]) = 1) as N1 by (snoc; now rewrite (i_unnotified _ _ VL)).
    assert (all_reported (h ++ [Ev NotifyAllRun tt])) as AR.
    { split; [exact N1|]. exists 0, []. snoc. rewrite V6, V7. cbn [map]. rewrite ?app_nil_r. split; reflexivity. }
    cbn [bind ask wp]. split; [exact I|].
    assert (forall k, books ((h ++ [Ev NotifyAllRun tt]) ++ [Ev (CloseConnection p) k]) hd) as B2
      by (intros k; apply books_same; try reflexivity; exact B1).
    intros [|]; cbn [negb bind ask wp].
    2: { split; [|split]; cbn [fst snd]; [exists meta; snoc; exact V2 | right; apply B2 | left; apply rough_snoc; now right]. }
    split; [exact I|].
    assert (forall k, books (((h ++ [Ev NotifyAllRun tt]) ++ [Ev (CloseConnection p) true]) ++ [Ev (Wait p) k]) hd) as B3.
    { intros k. apply books_same; try reflexivity; [apply B2|]. intros q Lq. cbn. fold p in Lq. destruct k; [|reflexivity]. now eqb. }
    intros [st|]; cbn [bind ask wp].
    2: { split; [|split]; cbn [fst snd]; [exists meta; snoc; exact V2 | right; apply B3 | left; apply rough_snoc; now right]. }
    split; [|split]; cbn [fst snd]; [exists meta; snoc; exact V2 | right; apply B3 |].
    split; [apply B3|]. split.
    { exists st. split; [|reflexivity]. fold p. snoc. eqb. pose proof (i_unwaited _ _ VL) as U. fold p in U. now rewrite U. }
    snoc. rewrite (i_unnotified _ _ VL). repeat split; auto.
  - rewrite items_cons in AL. cbn [List.app] in AL. apply wp_bind.
    eapply (reconcile_wp meta done); [exact V | exact L | |].
    + intros h' hd' V' RN LG. destruct V' as [VL V2 V3 V4 V5 V6 V7].
      set (p := s_proc (h_state hd')) in *. cbn [bind ask wp]. split.
      { cbn [rules]. destruct V3 as [works V3]. repeat split.
        - apply (i_started _ _ (i_books _ _ VL)).
        - apply (i_first _ _ (i_books _ _ VL)).
        - apply (i_alive _ _ VL).
        - exact V4.
        - exists (s_info (h_state hd')). split; [apply (i_said _ _ (i_books _ _ VL)) | apply (i_supported _ _ (i_books _ _ VL))].
        - exists meta, works. now split.
        - exists (items msgs). now rewrite V5.
        - exact LG.
        - apply (i_unnotified _ _ VL). }
      assert (forall k, books (h' ++ [Ev (RunTest p t) k]) hd') as B1
        by (intros k; apply books_same; try reflexivity; apply VL).
      intros [rs | |]; cbn [bind ask wp].
      * split; [cbn [rules]; snoc; apply (i_unnotified _ _ VL)|]. intros [].
        apply (IH (done ++ [t])).
        { split.
          - apply live_same; try reflexivity; [|intros q Lq; repeat split].
            apply live_same; try reflexivity; [exact VL|]. intros q Lq. fold p in Lq. repeat split. cbn. now eqb.
          - snoc. exact V2.
          - destruct V3 as [works V3]. exists (works ++ [t_work t]). snoc. fold p. eqb. rewrite V3, map_app. reflexivity.
          - snoc. exact V4.
          - snoc. rewrite map_app, V5. reflexivity.
          - snoc. rewrite map_app, V6. reflexivity.
          - snoc. rewrite map_app, V7. reflexivity. }
        { unfold last_given. rewrite !given_snoc. cbn [ev_given]. rewrite app_nil_r, rev_app_distr. cbn. now split. }
        { now rewrite <- app_assoc. }
      * eapply native_failure_wp; [apply B1 | snoc; exact V2 | snoc; apply (i_unnotified _ _ VL) | snoc; exact V6 | snoc; exact V7 | exact AL].
      * split; [exact I|]. intros [|]; cbn [bind ask wp].
        -- eapply native_failure_wp; [|snoc; exact V2 | snoc; apply (i_unnotified _ _ VL) | snoc; exact V6 | snoc; exact V7 | exact AL].
           apply books_same; try reflexivity. apply B1.
        -- split; [|split]; cbn [fst snd]; [exists meta; snoc; exact V2 | right; apply books_same; try reflexivity; apply B1 | left; apply rough_snoc; now right].
    + intros e h' hd' (F1 & F2 & F3). cbn [wp]. split; [|split]; cbn [fst snd].
      * now exists meta.
      * destruct F2; auto.
      * now left.
  - cbn [bind ask wp]. split; [exact I|]. intros []. apply (IH done); [| |exact AL].
    + destruct V as [VL V2 V3 V4 V5 V6 V7]. split; try (snoc; assumption).
      * apply live_same; try reflexivity; [exact VL|]. intros q Lq; repeat split.
    + unfold last_given in *. rewrite given_snoc. cbn [ev_given]. now rewrite app_nil_r.
Qed.

(* what holds when run_to_completion ends *)
Definition ended_well (x : runner_exit) (h : list event) : Prop :=
  exists n st info, started h = seq 0 (n + 1) /\ first <= n /\
    (forall q, q <= n -> exists st, statuses q h = [st]) /\ statuses n h = [st] /\
    said n h = [info] /\ x_info x = Some info /\
    map fst (outputs h) = seq 0 (n + 1) /\
    x_stdio x = stdio (joined (captures h)) /\ x_process x = c_combined (joined (captures h)) /\
    x_manifest_output x = (if asked then option_map c_combined (hd_error (map snd (outputs h))) else None) /\
    ((exists b, inits h = [Some (AlreadyCompleted b)] /\ x_code x = (if b then Z.max (exit_code st) 1 else exit_code st) /\
        given h = [] /\ answered h = [] /\ reports h = [] /\ notified h = 0)
     \/ (exists meta, inits h = [Some (Context meta)] /\ fetched = true /\ x_code x = exit_code st /\
        map snd (given h) = all /\ map fst (answered h) = all /\ reports h = map report_of (answered h) /\ notified h = 1)).

Definition ended_badly (e : runner_error) (h : list event) : Prop :=
  (inits h = [] /\ given h = [] /\ reports h = [] /\ notified h = 0 /\
     (if asked then (exists h', h = h' ++ [Ev (SendManifest (TestRunnerError (re_error e) (re_output e))) tt] /\ manifests h' = [])
                    \/ (exists m s, manifests h = [Manifest m s] /\ rough h)
      else manifests h = [] /\ rough h))
  \/ (exists i n info, inits h = [i] /\ (if asked then exists m s, manifests h = [Manifest m s] else manifests h = []) /\
      started h = seq 0 (n + 1) /\ said n h = [info] /\ re_info e = Some info /\
      map fst (outputs h) = seq 0 (n + 1) /\ re_output e = stdio (joined (captures h)) /\
      match i with
      | Some (Context _) => rough h \/ all_reported h
      | Some (AlreadyCompleted _) => rough h /\ given h = [] /\ reports h = [] /\ notified h = 0
      | None => given h = [] /\ reports h = [] /\ notified h = 0
      end).

Definition ended_as (r : runner_exit + runner_error) (h : list event) : Prop :=
  match r with inl x => ended_well x h | inr e => ended_badly e h end.

Lemma books_length h hd : books h hd -> List.length (map snd (outputs h)) = s_proc (h_state hd).
Proof. intros B. rewrite map_length, <- (map_length fst), (i_outs _ _ B). apply seq_length. Qed.

(* the last capture *)
Lemma books_finish h hd out : books h hd ->
  match s_previous (h_state hd) with Some o => append_captured o out | None => out end
    = joined (captures (h ++ [Ev (Finish (s_proc (h_state hd))) (Some out)])) /\
  map fst (outputs (h ++ [Ev (Finish (s_proc (h_state hd))) (Some out)])) = seq 0 (s_proc (h_state hd) + 1).
Proof.
  intros B. pose proof (books_length _ _ B) as LN. pose proof (i_first _ _ B) as FI. split.
  - rewrite captures_snoc. cbn [ev_output map snd]. rewrite skipn_app.
    replace (first - List.length (map snd (outputs h))) with 0 by lia. cbn [skipn].
    rewrite (i_prev _ _ B). unfold captures.
    destruct (skipn first (map snd (outputs h))) as [|o l] eqn:K; cbn [List.app].
    + now rewrite joined_one.
    + change (o :: l ++ [out]) with ((o :: l) ++ [out]). now rewrite joined_snoc.
  - snoc. rewrite map_app, (i_outs _ _ B). apply seq_snoc.
Qed.

Lemma statuses_finish q h p a : statuses q (h ++ [Ev (Finish p) a]) = statuses q h.
Proof. rewrite statuses_snoc. cbn. now rewrite app_nil_r. Qed.

(* the end of run_the_tests, once execute_all_tests has ended *)
Definition executed (r : res Z) (h : list event) (hd : handle) : Prop :=
  (exists i, inits h = [i] /\
    match i with
    | Some (Context meta) => match r with Ok _ => fetched = true | Err _ => True end /\ exists r', after_tests r' h hd /\ match r with Ok _ => r' = r | Err _ => True end
    | Some (AlreadyCompleted b) =>
        books h hd /\ given h = [] /\ answered h = [] /\ reports h = [] /\ notified h = 0 /\
        match r with
        | Ok code => exists st, statuses (s_proc (h_state hd)) h = [st] /\ code = (if b then Z.max (exit_code st) 1 else exit_code st)
        | Err _ => rough h
        end
    | None => books h hd /\ given h = [] /\ reports h = [] /\ notified h = 0 /\ exists e, r = Err e
    end).

Definition idle (h : list event) : Prop :=
  inits h = [] /\ given h = [] /\ answered h = [] /\ reports h = [].

Lemma execute_wp msgs h hd X :
  all = items msgs -> live h hd -> idle h -> s_proc (h_state hd) = first -> h_run hd = 1 ->
  told first h = [] -> ready first h = false ->
  wp (execute_all_tests c hd msgs fetched) rules X (fun r h => executed (snd r) h (fst r)) h.
Proof.
  intros AL L (I1 & I2 & I3 & I4) PF RN TO RD. unfold execute_all_tests. cbn [bind ask wp]. split.
  { cbn [rules]. repeat split; auto; [apply (i_unnotified _ _ L) | apply (i_manifests _ _ (i_books _ _ L))]. }
  assert (forall a, live (h ++ [Ev GetInit a]) hd) as L1
    by (intros a; apply live_same; try reflexivity; [exact L|]; intros q Lq; repeat split).
  intros [[meta | b]|]; cbn [bind ask wp].
  - unfold send_init_message. rewrite PF. cbn [bind ask wp]. split.
    { cbn [rules]. snoc. rewrite I1, TO, RD. pose proof (i_started _ _ (i_books _ _ L)) as ST. rewrite PF in ST.
      split; [exact ST|]. split; [lia|]. split; [reflexivity|]. split.
      - pose proof (i_alive _ _ L) as GA. now rewrite PF in GA.
      - split; [reflexivity|]. split; [|reflexivity]. exists (s_info (h_state hd)). snoc.
        pose proof (i_said _ _ (i_books _ _ L)) as SA. rewrite PF in SA. split; [exact SA | apply (i_supported _ _ (i_books _ _ L))]. }
    assert (forall k, live ((h ++ [Ev GetInit (Some (Context meta))]) ++ [Ev (Write first (InitMessage meta false)) k]) hd) as L2.
    { intros k. apply live_same; try reflexivity; [apply L1|]. intros q Lq. rewrite PF in Lq. repeat split. cbn. now eqb. }
    assert (forall h' r', books h' hd -> inits h' = [Some (Context meta)] -> rough h' -> executed (Err r') h' hd) as FAIL.
    { intros h' r' B E R. exists (Some (Context meta)). split; [exact E|]. split; [exact I|]. exists (Err r'). split; [|exact I].
      split; [now exists meta|]. split; [now right | now left]. }
    intros [|]; cbn [negb bind ask wp].
    2: { apply FAIL; [apply L2 | snoc; now rewrite I1 | apply rough_snoc; now right]. }
    split; [eexists; snoc; rewrite TO; now eqb|].
    set (h2 := (h ++ _) ++ _).
    assert (forall k, live (h2 ++ [Ev (ReadInitSuccess first) k]) hd) as L3.
    { intros k. apply live_same; try reflexivity; [apply L2|]. intros q Lq. rewrite PF in Lq. repeat split. cbn. destruct k; now eqb. }
    intros [|]; cbn [negb wp].
    2: { apply FAIL; [apply L3 | unfold h2; snoc; now rewrite I1 | apply rough_snoc; now right]. }
    apply wp_bind. eapply wp_mono; [apply (run_tests_wp meta X msgs [])|].
    + split; [apply L3 | | | | | |]; unfold h2; snoc; rewrite ?PF, ?I1, ?I2, ?I3, ?I4; try reflexivity.
      * exists []. eqb. now rewrite TO.
      * eqb. now rewrite orb_true_r.
    + unfold last_given, h2. rewrite !given_snoc. cbn [ev_given]. rewrite !app_nil_r, I2. cbn. now split.
    + exact AL.
    + intros [hd' r] h' AT. cbn [wp fst snd] in *. destruct AT as ((m' & E) & AT2 & AT3).
      exists (Some (Context m')). split; [exact E|]. split; [destruct fetched; destruct r; auto|].
      exists r. split; [|destruct fetched; destruct r; auto]. split; [now exists m'|]. now split.
  - apply wp_bind. unfold send_fast_exit_message. rewrite PF. cbn [bind ask wp].
    assert (forall h' r', books h' hd -> inits h' = [Some (AlreadyCompleted b)] -> given h' = [] -> answered h' = [] -> reports h' = [] -> notified h' = 0 ->
       rough h' -> executed (Err r') h' hd) as FAIL.
    { intros h' r' B E1 E2 E3 E4 E5 R. exists (Some (AlreadyCompleted b)). split; [exact E1|]. repeat (split; [assumption|]). exact R. }
    split.
    { cbn [rules]. snoc. rewrite I1, TO, RD. pose proof (i_started _ _ (i_books _ _ L)) as ST. rewrite PF in ST.
      split; [exact ST|]. split; [lia|]. split; [reflexivity|]. split.
      - pose proof (i_alive _ _ L) as GA. now rewrite PF in GA.
      - split; [reflexivity|]. split.
        + exists (s_info (h_state hd)). snoc.
          pose proof (i_said _ _ (i_books _ _ L)) as SA. rewrite PF in SA. split; [exact SA | apply (i_supported _ _ (i_books _ _ L))].
        + split; [reflexivity | now exists b]. }
    assert (forall k, live ((h ++ [Ev GetInit (Some (AlreadyCompleted b))]) ++ [Ev (Write first (InitMessage default_meta true)) k]) hd) as L2.
    { intros k. apply live_same; try reflexivity; [apply L1|]. intros q Lq. rewrite PF in Lq. repeat split. cbn. now eqb. }
    pose proof (i_unnotified _ _ L) as UN. pose proof (i_unwaited _ _ L) as UW. rewrite PF in UW.
    intros [|]; cbn [negb bind ask wp].
    2: { apply FAIL; [apply L2 | snoc; now rewrite I1 | snoc; auto .. | apply rough_snoc; now right]. }
    split; [exact I|].
    assert (forall k, live (((h ++ [Ev GetInit (Some (AlreadyCompleted b))]) ++ [Ev (Write first (InitMessage default_meta true)) true]) ++ [Ev (CloseConnection first) k]) hd) as L3.
    { intros k. apply live_same; try reflexivity; [apply L2|]. intros q Lq. repeat split. }
    intros [|]; cbn [negb bind ask wp].
    2: { apply FAIL; [apply L3 | snoc; now rewrite I1 | snoc; auto .. | apply rough_snoc; now right]. }
    split; [exact I|].
    assert (forall k, books ((((h ++ [Ev GetInit (Some (AlreadyCompleted b))]) ++ [Ev (Write first (InitMessage default_meta true)) true]) ++ [Ev (CloseConnection first) true]) ++ [Ev (Wait first) k]) hd) as B4.
    { intros k. apply books_same; try reflexivity; [apply L3|]. intros q Lq. rewrite PF in Lq. cbn. destruct k; [now eqb | reflexivity]. }
    intros [st|]; cbn [negb bind ask wp fst snd].
    2: { apply FAIL; [apply B4 | snoc; now rewrite I1 | snoc; auto .. | apply rough_snoc; now right]. }
    exists (Some (AlreadyCompleted b)). split; [snoc; now rewrite I1|].
    split; [apply B4|]. split; [snoc; auto|]. split; [snoc; auto|]. split; [snoc; auto|]. split; [snoc; auto|].
    exists st. rewrite PF. split; [snoc; eqb; now rewrite UW | reflexivity].
  - exists None. cbn [fst snd]. split; [snoc; now rewrite I1|]. split; [apply L1|].
    pose proof (i_unnotified _ _ L) as UN.
    split; [snoc; auto|]. split; [snoc; auto|]. split; [snoc; auto|]. now exists EIo.
Qed.

(* lib.rs:841-875 *)
Definition wind_up (hd : handle) (opt_err : res Z) (mo : option (list nat)) : program (runner_exit + runner_error) :=
  let* (h, out) := finish hd in
  match out with
  | None => Panic
  | Some current =>
      let output := match s_previous (h_state hd) with Some o => append_captured o current | None => current end in
      let info := s_info (h_state h) in
      Return
        match opt_err with
        | Ok code => inl {| x_code := code; x_info := Some info; x_manifest_output := mo;
                            x_stdio := stdio output; x_process := c_combined output |}
        | Err e => inr {| re_error := e; re_output := stdio output; re_info := Some info |}
        end
  end.

Lemma hd_error_snoc {A} (l : list A) x a : hd_error l = Some a -> hd_error (l ++ [x]) = Some a.
Proof. destruct l; [discriminate | auto]. Qed.

Definition first_output (h : list event) : option (list nat) :=
  if asked then option_map c_combined (hd_error (map snd (outputs h))) else None.

Lemma first_output_snoc h hd x : books h hd -> first_output (h ++ [x]) = first_output h.
Proof.
  intros B. unfold first_output. pose proof (i_first _ _ B) as F. pose proof (books_length _ _ B) as L.
  destruct asked; [|reflexivity]. cbn in F. rewrite outputs_snoc, map_app.
  destruct (map snd (outputs h)) as [|o l]; [cbn in L; lia | reflexivity].
Qed.

Lemma wind_up_wp r h hd mo :
  executed r h hd -> mo = first_output h -> wp (wind_up hd r mo) rules derailed ended_as h.
Proof.
  intros (i & E & H) MO. unfold wind_up, finish.
  assert ((rough h /\ s_finished (h_state hd) = true) \/ books h hd) as [[R F] | B].
  { destruct i as [[meta | b]|]; [|right; apply H | right; apply H]. destruct H as (_ & r' & AT & _). apply AT. }
  { rewrite F. split; [exact R | congruence]. }
  rewrite (i_unfinished _ _ B). cbn [bind ask wp]. split; [exact I|].
  intros [out|]; cbn [bind ask wp]; [|split; [apply rough_snoc; now right | snoc; congruence]].
  set (h' := h ++ _). destruct (books_finish h hd out B) as [J O]. fold h' in J, O. rewrite J.
  assert (started h' = seq 0 (s_proc (h_state hd) + 1)) as ST by (unfold h'; snoc; apply (i_started _ _ B)).
  assert (said (s_proc (h_state hd)) h' = [s_info (h_state hd)]) as SA by (unfold h'; snoc; apply (i_said _ _ B)).
  assert (inits h' = inits h /\ given h' = given h /\ answered h' = answered h /\ reports h' = reports h /\ notified h' = notified h /\ manifests h' = manifests h)
    as (E1 & E2 & E3 & E4 & E5 & E6) by (unfold h'; snoc; auto 10).
  assert (forall q, statuses q h' = statuses q h) as SS by (intros q; unfold h'; apply statuses_finish).
  assert (rough h -> rough h') as RR by (intros R; unfold h'; apply rough_snoc; now left).
  assert (first_output h' = first_output h) as FO by (unfold h'; eapply first_output_snoc; eassumption).
  unfold ended_as. cbn [with_state h_state set_finished s_info].
  destruct r as [code | e].
  - assert (exists st, statuses (s_proc (h_state hd)) h = [st]) as [st W].
    { destruct i as [[meta | b]|].
      - destruct H as (_ & r' & AT & ->). destruct AT as (_ & _ & _ & (st & W & _) & _). now exists st.
      - destruct H as (_ & _ & _ & _ & _ & st & W & _). now exists st.
      - destruct H as (_ & _ & _ & _ & e & X). discriminate. }
    exists (s_proc (h_state hd)), st, (s_info (h_state hd)).
    split; [exact ST|]. split; [apply (i_first _ _ B)|]. split.
    { intros q L. rewrite SS. destruct (Nat.eq_dec q (s_proc (h_state hd))) as [-> | N]; [now exists st | apply (i_waited _ _ B); lia]. }
    split; [now rewrite SS|]. split; [exact SA|]. split; [reflexivity|]. split; [exact O|].
    cbn [x_stdio x_process x_manifest_output x_code]. split; [reflexivity|]. split; [reflexivity|].
    split; [rewrite MO, <- FO; reflexivity|]. rewrite E1, E2, E3, E4, E5.
    destruct i as [[meta | b]|].
    + right. exists meta. destruct H as (FE & r' & AT & ->). destruct AT as (_ & _ & _ & (st' & W' & C) & N & G & A & P).
      rewrite W in W'. injection W' as <-. split; [exact E|]. split; [exact FE|]. split; [exact C|]. auto.
    + left. exists b. destruct H as (_ & G & A & P & N & st' & W' & C). rewrite W in W'. injection W' as <-. split; [exact E|]. split; [exact C|]. auto.
    + destruct H as (_ & _ & _ & _ & e & X). discriminate.
  - right. exists i, (s_proc (h_state hd)), (s_info (h_state hd)). cbn [re_error re_output re_info].
    split; [congruence|]. split; [pose proof (i_manifests _ _ B) as M; destruct asked; rewrite E6; exact M|].
    split; [exact ST|]. split; [exact SA|]. split; [reflexivity|]. split; [exact O|]. split; [reflexivity|].
    rewrite E2, E4, E5. destruct i as [[meta | b]|].
    + destruct H as (_ & r' & AT & _). destruct AT as (_ & _ & AT).
      assert (rough h \/ all_reported h) as [R | A].
      { destruct r' as [code | e']; [|exact AT]. right. destruct AT as (_ & _ & N & G & A & P).
        split; [exact N|]. exists 0, []. cbn [map]. rewrite !app_nil_r, A. now split. }
      * left. auto.
      * right. unfold all_reported in *. now rewrite E3, E4, E5.
    + destruct H as (_ & G & A & P & N & R). auto.
    + destruct H as (_ & G & P & N & _). auto.
Qed.

Lemma wp_extends {A} (p : program A) W X Q : forall h,
  wp p W X Q h -> wp p W X (fun a h' => Q a h' /\ exists suf, h' = h ++ suf) h.
Proof.
  induction p as [a | | e k IH]; intros h H; cbn in *; [|exact H|].
  - split; [exact H | exists []; now rewrite app_nil_r].
  - destruct H as [H1 H2]. split; [exact H1|]. intros a. eapply wp_mono; [apply IH, H2|].
    intros b h' [Q' [suf ->]]. split; [exact Q'|]. exists (Ev e a :: suf). now rewrite <- app_assoc.
Qed.

Lemma tests_wp msgs h hd mo :
  all = items msgs -> live h hd -> idle h -> s_proc (h_state hd) = first -> h_run hd = 1 ->
  told first h = [] -> ready first h = false -> mo = first_output h ->
  wp (let* (hd, r) := execute_all_tests c hd msgs fetched in wind_up hd r mo) rules derailed ended_as h.
Proof.
  intros AL L ID PF RN TO RD MO. apply wp_bind.
  eapply wp_mono; [apply wp_extends; eapply execute_wp; eauto|].
  intros [hd' r] h' [EX [suf ->]]. cbn [fst snd] in EX. apply wind_up_wp; [exact EX|].
  rewrite MO. unfold first_output. destruct asked; [|reflexivity].
  pose proof (books_length _ _ (i_books _ _ L)) as LN. rewrite PF in LN. cbn in LN.
  unfold outputs in *. rewrite flat_map_app, map_app.
  destruct (map snd (flat_map ev_output h)); [discriminate | reflexivity].
Qed.

Lemma run_the_tests_wp_asked msgs h hd mo m s :
  asked = true -> all = items msgs -> before 1 h -> idle h -> notified h = 0 ->
  s_for_manifest (h_state hd) = true -> h_next hd = 1 -> h_run hd = 1 ->
  manifests h = [Manifest m s] -> (exists o, outputs h = [(0, o)]) -> (exists st, statuses 0 h = [st]) -> mo = first_output h ->
  wp (run_the_tests c hd mo msgs fetched) rules derailed ended_as h.
Proof.
  intros AS AL BF ID NT FM NX RN MF (o & OU) WT MO. unfold run_the_tests, reconcile_for_start_of_run.
  rewrite FM. cbn [negb]. apply wp_bind, wp_bind. rewrite NX.
  assert (first = 1) as F1 by (unfold first_tester; now rewrite AS).
  destruct ID as (I1 & I2 & I3 & I4). destruct BF as (B1 & B2 & B3).
  apply wp_new_runner; [now split | now rewrite F1 | now rewrite andb_false_r | |].
  - intros addr l info S. cbn [wp bind].
    destruct (B3 1 (le_n _)) as (U1 & U2 & U3 & U4 & U5).
    set (h' := ((h ++ _) ++ _) ++ _).
    refine (tests_wp msgs h' {| h_run := h_run hd; h_state := _; h_next := 1 + 1 |} mo AL _ _ _ RN _ _ _); rewrite ?F1.
    + split; cbn [h_state s_proc].
      * split; cbn [h_state s_proc h_next s_info s_finished s_previous]; try reflexivity; try exact S.
        -- unfold h'. snoc. rewrite B1. reflexivity.
        -- intros q Lq. destruct WT as [st WT]. exists st. unfold h'. snoc. replace q with 0 by lia. exact WT.
        -- unfold h'. snoc. rewrite U4. now eqb.
        -- lia.
        -- unfold h'. snoc. rewrite OU. reflexivity.
        -- unfold h', captures. snoc. rewrite OU, F1. reflexivity.
        -- unfold h'. snoc. rewrite AS, MF. now exists m, s.
      * intros q Lq. unfold h'. snoc. now apply B2.
      * intros q Lq. unfold h'. repeat apply untouched_snoc; try (repeat split; fail); [apply B3; lia|].
        repeat split. cbn. now eqb.
      * unfold h'. snoc. exact U2.
      * unfold h'. snoc. exact U5.
      * unfold h'. snoc. exact NT.
    + unfold idle, h'. snoc. auto.
    + reflexivity.
    + unfold h'. snoc. exact U1.
    + unfold h'. snoc. exact U3.
    + rewrite MO. unfold first_output, h'. snoc. reflexivity.
  - intros e suf QS RS EI. cbn [wp]. left. destruct (quiet_all h suf QS) as (Q1 & Q2 & Q3 & Q4 & Q5).
    rewrite Q1, Q2, Q3, Q4, Q5, AS. repeat (split; [assumption|]). right. exists m, s. split; [assumption|].
    apply rough_app. now right.
Qed.

Lemma run_wp msgs : all = items msgs -> wp (run_to_completion c asked msgs fetched) rules derailed ended_as [].
Proof.
  intros AL. unfold run_to_completion. apply wp_bind. apply wp_new_runner.
  - split; [reflexivity|]. split; [lia|]. intros q _. repeat split.
  - destruct asked; reflexivity.
  - now rewrite andb_true_r.
  - intros addr l info S. destruct asked eqn:AS.
    + set (h0 := (([] ++ _) ++ _) ++ _).
      apply wp_bind, wp_bind. unfold retrieve_manifest. cbn [bind ask wp h_state s_proc].
      split; [cbn [rules]; unfold h0; split; [exact AS|]; repeat split|].
      assert (forall h (E : runner_error), (exists n, started h = seq 0 n) -> manifests h = [] -> inits h = [] -> given h = [] -> reports h = [] -> notified h = 0 ->
        wp (let* _ := ask (SendManifest (TestRunnerError (re_error E) (re_output E))) in Return (inr E)) rules derailed ended_as h) as FAIL.
      { intros h E _ M I1 G R N. cbn [bind ask wp]. split; [cbn [rules]; auto 10|]. intros []. left. snoc. rewrite AS.
        repeat (split; [assumption|]). left. exists h. auto. }
      intros [msg|]; cbn [bind ask wp].
      * split; [exact I|]. intros st. destruct st as [st|]; cbn [bind wp]; unfold finish; cbn [h_state s_finished bind ask wp s_proc].
        -- split; [exact I|]. intros [out|]; cbn [bind wp].
           ++ cbn [with_state h_state set_finished s_info]. destruct msg as [m | sd]; cbn [bind wp].
              ** cbn [bind ask wp]. split.
                 { cbn [rules]. unfold h0. split; [exact AS|]. repeat split. }
                 intros []. eapply run_the_tests_wp_asked; eauto; try reflexivity.
                 --- split; [reflexivity|]. split; [intros q L; replace q with 0 by lia; reflexivity|].
                     intros q L. destruct q; [lia|]. repeat split.
                 --- unfold idle, h0. repeat split.
                 --- now exists out.
                 --- now exists st.
                 --- unfold first_output. now rewrite AS.
              ** apply FAIL; try reflexivity. now exists 1.
           ++ apply FAIL; try reflexivity. now exists 1.
        -- split; [exact I|]. intros [out|]; cbn [bind wp]; apply FAIL; try reflexivity; now exists 1.
      * unfold finish; cbn [h_state s_finished bind ask wp s_proc].
        split; [exact I|]. intros [out|]; cbn [bind wp]; apply FAIL; try reflexivity; now exists 1.
    + cbn [wp]. unfold run_the_tests, reconcile_for_start_of_run. cbn [h_state s_for_manifest negb bind wp].
      refine (tests_wp msgs _ _ None AL _ _ _ _ _ _ _); try reflexivity.
      * split; cbn [h_state s_proc]; try (intros; lia); try reflexivity.
        -- split; cbn [h_state s_proc h_next s_info s_finished s_previous]; try (intros; lia); try reflexivity; try exact S.
           ++ unfold first_tester. rewrite AS. lia.
           ++ unfold captures, first_tester. now rewrite AS.
           ++ now rewrite AS.
        -- intros q L. destruct q; [lia|]. repeat split.
      * repeat split.
      * unfold first_tester. now rewrite AS.
      * unfold first_output. now rewrite AS.
  - intros e suf QS RS EI. destruct (quiet_all [] suf QS) as (Q1 & Q2 & Q3 & Q4 & Q5). destruct asked eqn:AS.
    + cbn [bind ask wp]. split; [cbn [rules]; auto 10|]. intros []. left. snoc. rewrite Q1, Q2, Q3, Q4, AS.
      repeat (split; [reflexivity|]). left. eexists. split; [reflexivity | exact Q5].
    + cbn [wp]. left. rewrite Q1, Q2, Q3, Q4, Q5, AS. repeat (split; [reflexivity|]). exact RS.
Qed.
End Runner.

(* ------------------------------------------------------------------ *)
(* What follows from the rules, for any record that keeps them.         *)
Section Record.
Variable c : params.
Variable asked : bool.
Variable all : list test.
Definition lawful (tr : list event) : Prop :=
  forall tr1 e a tr2, tr = tr1 ++ Ev e a :: tr2 -> rules c asked all tr1 e.

Lemma lawful_prefix tr x : lawful (tr ++ [x]) -> lawful tr.
Proof. intros L tr1 e a tr2 ->. apply (L tr1 e a (tr2 ++ [x])). now rewrite <- app_assoc. Qed.
Lemma lawful_last tr e a : lawful (tr ++ [Ev e a]) -> rules c asked all tr e.
Proof. intros L. now apply (L tr e a []). Qed.

Definition shape (p : nat) (tr : list event) : Prop :=
  told p tr = []
  \/ (exists meta works, told p tr = InitMessage meta false :: map TestCase works /\ In (Some (Context meta)) (inits tr) /\
      (works <> [] -> ready p tr = true))
  \/ (told p tr = [InitMessage default_meta true] /\ exists b, In (Some (AlreadyCompleted b)) (inits tr)).

Lemma shape_same p tr x : shape p tr -> ev_told p x = [] -> shape p (tr ++ [x]).
Proof.
  intros [E | [(m & w & E & I & R) | (E & b & I)]] T; unfold shape; rewrite told_snoc, T, app_nil_r, inits_snoc, ready_snoc.
  - now left.
  - right. left. exists m, w. split; [exact E|]. split; [apply in_or_app; now left|]. intros W. now rewrite (R W).
  - right. right. split; [exact E|]. exists b. apply in_or_app. now left.
Qed.

Lemma lawful_shape p : forall tr, lawful tr -> shape p tr.
Proof.
  induction tr as [|x tr IH] using rev_ind; intros L; [now left|].
  specialize (IH (lawful_prefix _ _ L)). destruct x as [e a].
  pose proof (lawful_last _ _ _ L) as R.
  destruct e as [ | | | | | | | |q m| | |q t| | | | | ]; try (apply shape_same; [exact IH | reflexivity]).
  - destruct (Nat.eq_dec p q) as [<- | N].
    2: { apply shape_same; [exact IH|]. cbn. apply Nat.eqb_neq in N. now rewrite N. }
    cbn [rules] in R. destruct R as (_ & _ & T & _ & _ & _ & M).
    unfold shape. rewrite told_snoc, T, inits_snoc, ready_snoc. cbn [ev_told List.app ev_init]. rewrite Nat.eqb_refl, app_nil_r.
    destruct m as [meta [|] | w]; [right; right | right; left | contradiction].
    + destruct M as (-> & b & ->). split; [reflexivity | exists b; now left].
    + exists meta, []. rewrite M. split; [reflexivity|]. split; [now left | congruence].
  - destruct (Nat.eq_dec p q) as [<- | N].
    2: { apply shape_same; [exact IH|]. cbn. apply Nat.eqb_neq in N. now rewrite N. }
    cbn [rules] in R. destruct R as (_ & _ & _ & RD & _ & (meta & works & IN & T) & _).
    right. left. exists meta, (works ++ [t_work t]). rewrite told_snoc, T, inits_snoc, ready_snoc, RD, IN.
    cbn [ev_told]. rewrite Nat.eqb_refl, map_app. split; [reflexivity|]. split; [now left | reflexivity].
Qed.

Lemma given_split : forall tr g1 p t g2, given tr = g1 ++ (p, t) :: g2 ->
  exists h1 a h2, tr = h1 ++ Ev (RunTest p t) a :: h2 /\ given h1 = g1.
Proof.
  induction tr as [|x tr IH]; intros g1 p t g2 E; [destruct g1; discriminate|].
  unfold given in E. cbn in E. destruct (ev_given x) as [|[q u] l] eqn:X; cbn in E.
  - destruct (IH _ _ _ _ E) as (h1 & a & h2 & -> & G). exists (x :: h1), a, h2. split; [reflexivity|].
    unfold given. cbn. rewrite X. exact G.
  - assert (l = [] /\ exists a, x = Ev (RunTest q u) a) as [-> [a ->]].
    { destruct x as [[] a]; try discriminate. cbn in X. injection X as <- <- <-. split; [reflexivity | now eexists]. }
    cbn in E. destruct g1 as [|y g1]; cbn in E.
    + injection E as -> -> _. exists [], a, tr. now split.
    + injection E as <- E. destruct (IH _ _ _ _ E) as (h1 & a' & h2 & -> & G).
      exists (Ev (RunTest q u) a :: h1), a', h2. split; [reflexivity|]. unfold given in *. cbn. now rewrite G.
Qed.

Lemma lawful_given : forall tr, lawful tr -> exists rest, all = map snd (given tr) ++ rest.
Proof.
  induction tr as [|x tr IH] using rev_ind; intros L; [now exists all|].
  destruct (IH (lawful_prefix _ _ L)) as [rest E]. destruct x as [e a]. rewrite given_snoc.
  pose proof (lawful_last _ _ _ L) as R.
  destruct e; cbn [ev_given]; rewrite ?app_nil_r; try now exists rest.
  cbn [rules] in R. destruct R as (_ & _ & _ & _ & _ & _ & (rest' & E') & _). exists rest'. rewrite map_app, <- app_assoc. exact E'.
Qed.

Lemma lawful_notified : forall tr, lawful tr -> notified tr <= 1.
Proof.
  induction tr as [|x tr IH] using rev_ind; intros L; [cbn; lia|].
  specialize (IH (lawful_prefix _ _ L)). destruct x as [e a]. rewrite notified_snoc.
  pose proof (lawful_last _ _ _ L) as R. destruct e; cbn [ev_notified List.length]; try lia.
  cbn [rules] in R. lia.
Qed.

Lemma lawful_manifests : forall tr, lawful tr ->
  manifests tr = [] \/ (asked = true /\ exists r, manifests tr = [r]).
Proof.
  induction tr as [|x tr IH] using rev_ind; intros L; [now left|].
  specialize (IH (lawful_prefix _ _ L)). destruct x as [e a]. rewrite manifests_snoc.
  pose proof (lawful_last _ _ _ L) as R. destruct e; cbn [ev_manifest]; rewrite ?app_nil_r; try exact IH.
  cbn [rules] in R. destruct R as (A & -> & _). right. split; [exact A | eexists; reflexivity].
Qed.

Lemma lawful_inits_manifest : forall tr, lawful tr -> inits tr <> [] ->
  asked = true -> exists m s, manifests tr = [Manifest m s].
Proof.
  induction tr as [|x tr IH] using rev_ind; intros L N A; [contradiction|].
  specialize (IH (lawful_prefix _ _ L)). destruct x as [e a]. rewrite manifests_snoc. rewrite inits_snoc in N.
  pose proof (lawful_last _ _ _ L) as R.
  destruct e; cbn [ev_manifest ev_init] in *; rewrite ?app_nil_r in *; try (now apply IH).
  - cbn [rules] in R. destruct R as (_ & _ & I & _). contradiction.
  - cbn [rules] in R. destruct R as (_ & _ & _ & M). rewrite A in M. exact M.
Qed.
End Record.

(* ------------------------------------------------------------------ *)
(* The runner waits for a bounded number of answers. *)
Section Bounded.
Variable N : nat.
Definition within (h : list event) (e : effect) : Prop := List.length h < N.
Definition anyway (h : list event) : Prop := True.
Ltac len := unfold within; rewrite ?app_length in *; cbn [List.length] in *; try lia.

Lemma new_runner_within c m r prev p h (Q : state + runner_error -> list event -> Prop) :
  List.length h + 5 <= N -> (forall s h', List.length h' <= List.length h + 5 -> Q s h') ->
  wp (new_native_runner c m r prev p) within anyway Q h.
Proof.
  intros L H. unfold new_native_runner. cbn [bind ask wp]. split; [len|]. intros [addr|]; cbn [wp]; [|apply H; len].
  cbn [bind ask wp]. split; [len|]. intros [|]; cbn [negb bind ask wp]; [|apply H; len].
  split; [len|]. intros r0. destruct (checked_hello r0); cbn [wp]; [apply H; len|].
  cbn [handle_connection_error bind ask wp]. split; [len|].
  intros [[o|]|]; cbn [bind ask wp]; [apply H; len | apply H; len |]. split; [len|]. intros k. apply H; len.
Qed.

Lemma reconcile_within c hd run meta h (Q : handle * res unit -> list event -> Prop) :
  List.length h + 10 <= N -> (forall r h', List.length h' <= List.length h + 10 -> Q r h') ->
  wp (reconcile_run_number c hd run meta) within anyway Q h.
Proof.
  intros L H. unfold reconcile_run_number. destruct (Nat.eqb run (h_run hd)); cbn [wp]; [apply H; len|].
  cbn [bind ask wp]. split; [len|]. intros [|]; cbn [negb bind ask wp]; [|apply H; len].
  split; [len|]. intros [st|]; cbn [wp]; [|apply H; len].
  unfold finish. destruct (s_finished (h_state hd)); cbn [bind ask wp]; [exact I|].
  split; [len|]. intros [o|]; cbn [bind wp]; [|apply H; len].
  apply wp_bind. apply new_runner_within; [len|]. intros [s|e] h' L'; cbn [wp]; [|apply H; len].
  unfold send_init_message. cbn [bind ask wp]. split; [len|]. intros [|]; cbn [negb bind ask wp]; [|apply H; len].
  split; [len|]. intros k. apply H; len.
Qed.

Lemma reports_within run (Q : unit -> list event -> Prop) : forall works h,
  List.length h + List.length works <= N ->
  (forall h', List.length h' <= List.length h + List.length works -> Q tt h') ->
  wp (report_failures run works) within anyway Q h.
Proof.
  induction works as [|w ws IH]; intros h L H; cbn [report_failures wp bind ask]; [apply H; cbn; lia|].
  cbn in L. split; [len|]. intros []. apply IH; [len|]. intros h' L'. apply H. len.
Qed.

Lemma flushed_length msgs : List.length (flushed msgs) <= List.length msgs.
Proof. induction msgs as [|[t|] l IH]; unfold flushed in *; cbn in *; lia. Qed.

Lemma failure_within hd t rest e h (Q : handle * res Z -> list event -> Prop) :
  List.length h + List.length rest + 3 <= N ->
  (forall r h', List.length h' <= List.length h + List.length rest + 3 -> Q r h') ->
  wp (native_failure hd t rest e) within anyway Q h.
Proof.
  intros L H. pose proof (flushed_length rest) as F. unfold native_failure. cbn [bind ask wp]. split; [len|]. intros st.
  apply wp_bind, reports_within; [len|]. intros h' L'. cbn [bind ask wp]. len. split; [len|]. intros []. apply H. len.
Qed.

Lemma run_tests_within c meta (Q : handle * res Z -> list event -> Prop) : forall msgs hd h,
  List.length h + 14 * List.length msgs + 3 <= N ->
  (forall r h', List.length h' <= List.length h + 14 * List.length msgs + 3 -> Q r h') ->
  wp (run_tests c meta hd msgs) within anyway Q h.
Proof.
  induction msgs as [|[t|] msgs IH]; intros hd h L H; cbn [run_tests List.length] in *.
  - cbn [bind ask wp]. split; [len|]. intros []. cbn [bind ask wp]. split; [len|].
    intros [|]; cbn [negb bind ask wp]; [|apply H; len]. split; [len|]. intros [st|]; cbn [wp]; apply H; len.
  - apply wp_bind, reconcile_within; [lia|]. intros [hd' [[]|e]] h' L'; cbn [wp]; [|apply H; len].
    cbn [bind ask wp]. split; [len|]. intros [rs | |]; cbn [bind ask wp].
    + split; [len|]. intros []. apply IH; [len|]. intros r h2 L2. apply H. len.
    + apply failure_within; [len|]. intros r h2 L2. apply H. len.
    + split; [len|]. intros [|]; cbn [wp]; [|apply H; len]. apply failure_within; [len|]. intros r h2 L2. apply H. len.
  - cbn [bind ask wp]. split; [len|]. intros []. apply IH; [len|]. intros r h2 L2. apply H. len.
Qed.

Lemma execute_within c hd msgs fetched h (Q : handle * res Z -> list event -> Prop) :
  List.length h + 14 * List.length msgs + 6 <= N ->
  (forall r h', List.length h' <= List.length h + 14 * List.length msgs + 6 -> Q r h') ->
  wp (execute_all_tests c hd msgs fetched) within anyway Q h.
Proof.
  intros L H. unfold execute_all_tests. cbn [bind ask wp]. split; [len|]. intros [[meta | b]|]; cbn [bind ask wp].
  - unfold send_init_message. cbn [bind ask wp]. split; [len|]. intros [|]; cbn [negb bind ask wp]; [|apply H; len].
    split; [len|]. intros [|]; cbn [negb bind ask wp]; [|apply H; len].
    apply wp_bind, run_tests_within; [len|]. intros [hd' r] h' L'. cbn [wp]. apply H. len.
  - unfold send_fast_exit_message. cbn [bind ask wp]. split; [len|].
    intros [|]; cbn [negb bind ask wp]; [|apply H; len]. split; [len|].
    intros [|]; cbn [negb bind ask wp]; [|apply H; len]. split; [len|].
    intros [st|]; cbn [bind wp]; apply H; len.
  - apply H. len.
Qed.

Lemma tests_within c hd mo msgs fetched h :
  List.length h + 14 * List.length msgs + 15 <= N ->
  wp (run_the_tests c hd mo msgs fetched) within anyway (fun _ h => List.length h <= N) h.
Proof.
  intros L. unfold run_the_tests, reconcile_for_start_of_run.
  destruct (s_for_manifest (h_state hd)); cbn [negb].
  - apply wp_bind, wp_bind, new_runner_within; [lia|]. intros [s|e] h' L'; cbn [wp]; [|lia].
    apply wp_bind, execute_within; [lia|]. intros [hd' r] h2 L2. unfold finish.
    destruct (s_finished (h_state hd')); cbn [bind ask wp]; [exact I|].
    split; [len|]. intros [o|]; cbn [bind wp]; [len | exact I].
  - cbn [bind wp]. apply wp_bind, execute_within; [lia|]. intros [hd' r] h2 L2. unfold finish.
    destruct (s_finished (h_state hd')); cbn [bind ask wp]; [exact I|].
    split; [len|]. intros [o|]; cbn [bind wp]; [len | exact I].
Qed.

Lemma run_within c asked msgs fetched : 14 * List.length msgs + 30 <= N ->
  wp (run_to_completion c asked msgs fetched) within anyway (fun _ h => List.length h <= N) [].
Proof.
  intros L. unfold run_to_completion. apply wp_bind, new_runner_within; [cbn; lia|].
  intros r h L'. cbn in L'. destruct asked.
  - destruct r as [s|e]; cbn [bind ask wp].
    + apply wp_bind, wp_bind. unfold retrieve_manifest. cbn [bind ask wp h_state]. split; [len|].
      assert (forall h', List.length h' + 1 <= N -> forall e : runner_error,
        wp (let* _ := ask (SendManifest (TestRunnerError (re_error e) (re_output e))) in @Return (runner_exit + runner_error) (inr e)) within anyway (fun _ h => List.length h <= N) h') as FAIL.
      { intros h' L2 e. cbn [bind ask wp]. split; [len|]. intros []. len. }
      intros [m|]; cbn [bind ask wp].
      * split; [len|]. intros [st|]; cbn [bind wp]; unfold finish; cbn [h_state s_finished]; destruct (s_finished s); cbn [bind ask wp]; try exact I;
          (split; [len|]); intros [o|]; cbn [bind wp]; try (apply FAIL; len).
        destruct m as [m | sd]; cbn [bind wp]; [|apply FAIL; len].
        cbn [bind ask wp]. split; [len|]. intros []. apply tests_within. len.
      * unfold finish; cbn [h_state s_finished]; destruct (s_finished s); cbn [bind ask wp]; try exact I;
          (split; [len|]); intros [o|]; cbn [bind wp]; apply FAIL; len.
    + split; [len|]. intros []. len.
  - destruct r as [s|e]; cbn [bind ask wp]; [|lia]. apply tests_within. lia.
Qed.
End Bounded.

Lemma lawful_run c asked msgs fetched e : run_async c asked msgs fetched e -> lawful c asked (items msgs) (e_trace e).
Proof.
  intros R tr1 x a tr2 E. pose proof (run_wp c asked (items msgs) fetched msgs eq_refl) as W.
  destruct R as [tr r X | tr X | tr y X]; cbn in E; exact (wp_rules _ _ _ _ _ _ _ W X tr1 x a tr2 E).
Qed.
