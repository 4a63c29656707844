From Verif Require Import Base StatusModel FetchModel FetchSpec.

Lemma NoDup_app_l {A} (l l' : list A) : NoDup (l ++ l') -> NoDup l.
Proof. induction l as [|a l IH]; simpl; intros H; constructor; inversion H as [|? ? N1 N2]; subst; auto. intros K; apply N1, in_or_app; auto. Qed.
Lemma NoDup_app_r {A} (l l' : list A) : NoDup (l ++ l') -> NoDup l'.
Proof. induction l as [|a l IH]; simpl; intros H; auto. inversion H; auto. Qed.

Lemma NoDup_app_intro {A} (l1 l2 : list A) : NoDup l1 -> NoDup l2 -> (forall x, In x l1 -> ~ In x l2) -> NoDup (l1 ++ l2).
Proof.
  induction l1 as [|a l1 IH]; intros H1 H2 Hd; simpl; auto. inversion H1; subst. constructor.
  - rewrite in_app_iff. intros [|]; auto. eapply Hd; simpl; eauto.
  - apply IH; auto. intros x Hx. apply Hd. simpl. auto.
Qed.

(* ---- results and failures ---- *)

Lemma fails_app rs rs' id k : fails (rs ++ rs') id k = fails rs id k || fails rs' id k.
Proof. apply existsb_app. Qed.

Lemma fails_one r id k : fails [r] id k = Nat.eqb (ar_work r) id && Nat.eqb (ar_run r) k && failing r.
Proof. unfold fails. simpl. apply orb_false_r. Qed.

Lemma fails_above rs id k : Forall (fun r => ar_run r < k) rs -> fails rs id k = false.
Proof.
  induction 1 as [|r rs H _ IH]; auto. unfold fails in *. simpl. rewrite IH, orb_false_r.
  destruct (Nat.eqb_spec (ar_run r) k); [lia|]. now rewrite andb_false_r.
Qed.

Lemma fails_through_spec rs id k : fails_through rs id k = true <-> forall j, 1 <= j <= k -> fails rs id j = true.
Proof.
  unfold fails_through. rewrite forallb_forall. split; intros H j Hj.
  - apply H, in_seq. lia.
  - apply in_seq in Hj. apply H. lia.
Qed.

Lemma fails_through_mono rs rs' id k : fails_through rs id k = true -> fails_through (rs ++ rs') id k = true.
Proof. rewrite !fails_through_spec. intros H j Hj. rewrite fails_app, (H j Hj). reflexivity. Qed.

Lemma failing_cases_nil r : failing r = false <-> failing_cases r = [].
Proof.
  unfold failing, failing_cases. induction (ar_results r) as [|[x s] l IH]; simpl; [tauto|].
  destruct (is_fail_like s); simpl; [split; discriminate|exact IH].
Qed.

(* ---- the tracker ---- *)

Definition entry_ok (rs : list aresult) (cur : nat) (e : entry) : Prop :=
  match e_status e with
  | HasNonFailingAttempt => fails rs (sp_id (e_spec e)) 1 = false /\ sp_focus (e_spec e) = None
  | AlwaysFailedOn l =>
      1 <= l <= cur /\ fails_through rs (sp_id (e_spec e)) l = true /\ fails rs (sp_id (e_spec e)) (l + 1) = false /\
      exists foc, sp_focus (e_spec e) = Some foc /\
        (forall r x rest, In r rs -> ar_work r = sp_id (e_spec e) -> ar_run r <= l -> failing_cases r = x :: rest -> In x foc) /\
        (forall x, In x foc -> exists r, In r rs /\ ar_work r = sp_id (e_spec e) /\ In x (failing_cases r))
  end.

Definition index_ok (t : tracker) : Prop :=
  forall i e, nth_error (tr_entries t) i = Some e -> tr_indices t (sp_id (e_spec e)) = Some i.

Definition add_first (t : tracker) (i k : nat) (x : nat) (e : entry) : tracker :=
  {| tr_indices := tr_indices t;
     tr_entries := upd i {| e_spec := {| sp_id := sp_id (e_spec e); sp_focus := add_focus (sp_focus (e_spec e)) x |};
                            e_status := AlwaysFailedOn k |} (tr_entries t);
     tr_max := tr_max t; tr_current := tr_current t; tr_state := tr_state t |}.

Definition sets (e : entry) (k : nat) : bool :=
  match e_status e with HasNonFailingAttempt => Nat.eqb k 1 | AlwaysFailedOn l => Nat.eqb (l + 1) k end.

Lemma account_failure_eq t w k x i e : tr_indices t w = Some i -> nth_error (tr_entries t) i = Some e ->
  account_failure t w k x = Some (if sets e k then add_first t i k x e else t).
Proof.
  intros H1 H2. unfold account_failure. rewrite H1, H2. unfold sets, INIT_RUN_NUMBER.
  destruct (e_status e); destruct (Nat.eqb _ _); reflexivity.
Qed.

(* once the entry does not take a failure of attempt k, the rest has no effect *)
Lemma account_one_noop w k rs : forall t i e, tr_indices t w = Some i -> nth_error (tr_entries t) i = Some e ->
  sets e k = false -> account_one t w k rs = Some t.
Proof.
  induction rs as [|[x s] rs IH]; intros t i e H1 H2 H3; simpl; auto.
  destruct (is_fail_like s).
  - rewrite (account_failure_eq t w k x i e H1 H2), H3. eapply IH; eauto.
  - eapply IH; eauto.
Qed.

Lemma account_one_eq w k rs : forall t i e, tr_indices t w = Some i -> nth_error (tr_entries t) i = Some e ->
  account_one t w k rs =
  Some (match map fst (filter (fun x => is_fail_like (snd x)) rs) with
        | x :: _ => if sets e k then add_first t i k x e else t
        | [] => t
        end).
Proof.
  induction rs as [|[x s] rs IH]; intros t i e H1 H2; simpl; auto.
  destruct (is_fail_like s) eqn:F; simpl.
  - rewrite (account_failure_eq t w k x i e H1 H2). destruct (sets e k) eqn:S.
    + assert (L : i < length (tr_entries t)) by (apply nth_error_Some; congruence).
      eapply account_one_noop; [exact H1|simpl; apply nth_error_upd_eq; auto|].
      unfold sets. simpl. apply Nat.eqb_neq. lia.
    + eapply account_one_noop; eauto.
  - eapply IH; eauto.
Qed.

Lemma account_one_nofail t w k rs : map fst (filter (fun x : nat * rstatus => is_fail_like (snd x)) rs) = [] -> account_one t w k rs = Some t.
Proof.
  revert t. induction rs as [|[x s] rs IH]; intros t H; simpl in *; auto. destruct (is_fail_like s); [discriminate|]. auto.
Qed.

Lemma add_focus_in f x l : add_focus f x = Some l -> In x l /\ forall y, (exists l0, f = Some l0 /\ In y l0) -> In y l.
Proof.
  destruct f as [ids|]; simpl.
  - destruct (existsb (Nat.eqb x) ids) eqn:E; intros [= <-].
    + apply existsb_exists in E as (y & I & Hy). apply Nat.eqb_eq in Hy as ->. split; auto. intros z (l0 & [= <-] & I'); auto.
    + split; [apply in_or_app; simpl; auto|]. intros z (l0 & [= <-] & I'). apply in_or_app; auto.
  - intros [= <-]. split; [simpl; auto|]. intros y (l0 & [=] & _).
Qed.

Lemma add_focus_only f x l y : add_focus f x = Some l -> In y l -> y = x \/ exists l0, f = Some l0 /\ In y l0.
Proof.
  destruct f as [ids|]; simpl.
  - destruct (existsb (Nat.eqb x) ids) eqn:E; intros [= <-] I; eauto.
    apply in_app_or in I as [I|[<-|[]]]; eauto.
  - intros [= <-] [<-|[]]; auto.
Qed.

Lemma add_focus_some f x : exists l, add_focus f x = Some l.
Proof. destruct f as [ids|]; simpl; [destruct existsb|]; eauto. Qed.

(* A report r of attempt cur leaves an entry in order. *)
Lemma entry_ok_other rs cur e r : ar_run r = cur -> ~ In (rkey r) (map rkey rs) -> entry_ok rs cur e ->
  (sp_id (e_spec e) <> ar_work r \/ failing r = false \/ sets e cur = false) -> entry_ok (rs ++ [r]) cur e.
Proof.
  intros RC NI OK D. unfold entry_ok in *.
  assert (F : forall j, fails (rs ++ [r]) (sp_id (e_spec e)) j =
                        fails rs (sp_id (e_spec e)) j || (Nat.eqb (ar_work r) (sp_id (e_spec e)) && Nat.eqb cur j && failing r)).
  { intros j. rewrite fails_app, fails_one, RC. reflexivity. }
  unfold sets in D. destruct (e_status e) as [|l].
  - destruct OK as [OK1 OK2]. split; auto. rewrite F, OK1. simpl.
    destruct (Nat.eqb_spec (ar_work r) (sp_id (e_spec e))) as [E|]; auto. destruct (Nat.eqb_spec cur 1); auto.
    destruct D as [D|[D|D]]; [congruence|now rewrite D|discriminate].
  - destruct OK as (O1 & O2 & O3 & foc & O4 & O5 & O6). split; auto. split; [now apply fails_through_mono|]. split.
    + rewrite F, O3. simpl. destruct (Nat.eqb_spec (ar_work r) (sp_id (e_spec e))) as [E|]; auto. simpl.
      destruct (Nat.eqb_spec cur (l + 1)); auto. destruct D as [D|[D|D]]; [congruence|now rewrite D|apply Nat.eqb_neq in D; congruence].
    + exists foc. split; auto. split.
      2:{ intros x Hx. destruct (O6 x Hx) as (r0 & I0 & W0). exists r0. split; auto. apply in_or_app; auto. }
      intros r0 x rest I W K FC. apply in_app_or in I as [I|[E|[]]]; [eauto|subst r0].
      destruct D as [D|[D|D]]; [congruence|apply failing_cases_nil in D; congruence|].
      exfalso. apply NI. assert (l = cur) as -> by lia.
      rewrite fails_through_spec in O2. specialize (O2 cur ltac:(lia)).
      apply existsb_exists in O2 as (r1 & I1 & H1). rewrite !andb_true_iff, !Nat.eqb_eq in H1. destruct H1 as [[H1 H2] _].
      apply in_map_iff. exists r1. split; auto. unfold rkey. congruence.
Qed.

Lemma entry_ok_set rs cur e r x rest : 1 <= cur -> ar_run r = cur -> Forall (fun r0 => 1 <= ar_run r0 <= cur) rs ->
  entry_ok rs cur e -> sp_id (e_spec e) = ar_work r -> failing_cases r = x :: rest -> sets e cur = true ->
  ~ In (rkey r) (map rkey rs) ->
  entry_ok (rs ++ [r]) cur {| e_spec := {| sp_id := sp_id (e_spec e); sp_focus := add_focus (sp_focus (e_spec e)) x |};
                              e_status := AlwaysFailedOn cur |}.
Proof.
  intros C1 RC BD OK W FC ST NI. unfold entry_ok in *. simpl.
  assert (FR : failing r = true) by (destruct (failing r) eqn:E; auto; apply failing_cases_nil in E; congruence).
  assert (F : forall j, fails (rs ++ [r]) (sp_id (e_spec e)) j = fails rs (sp_id (e_spec e)) j || Nat.eqb cur j).
  { intros j. rewrite fails_app, fails_one, RC, FR, W, Nat.eqb_refl, andb_true_r. reflexivity. }
  destruct (add_focus_some (sp_focus (e_spec e)) x) as [foc Hf]. destruct (add_focus_in _ _ _ Hf) as [Hin Hold].
  assert (prev : forall j, 1 <= j < cur -> fails rs (sp_id (e_spec e)) j = true).
  { unfold sets in ST. destruct (e_status e) as [|l]; apply Nat.eqb_eq in ST; [lia|].
    destruct OK as (_ & O2 & _). rewrite fails_through_spec in O2. intros j Hj. apply O2. lia. }
  split; [lia|]. split; [|split].
  - apply fails_through_spec. intros j Hj. rewrite F. destruct (Nat.eqb_spec cur j); [apply orb_true_r|].
    rewrite prev by lia. reflexivity.
  - rewrite F. rewrite fails_above; [simpl; apply Nat.eqb_neq; lia|].
    eapply Forall_impl; [|exact BD]. simpl. intros; lia.
  - exists foc. split; auto. split.
    2:{ intros y Hy. destruct (add_focus_only _ _ _ _ Hf Hy) as [->|(l0 & E0 & I0)].
        - exists r. split; [apply in_or_app; simpl; auto|]. split; auto. rewrite FC. simpl. auto.
        - destruct (e_status e) as [|l]; [destruct OK as [_ OK]; congruence|].
          destruct OK as (_ & _ & _ & foc0 & O4 & _ & O6). assert (foc0 = l0) as -> by congruence.
          destruct (O6 y I0) as (r0 & K1 & K2). exists r0. split; auto. apply in_or_app; auto. }
    intros r0 y rs0 I W0 K FC0. apply in_app_or in I as [I|[E|[]]]; [|subst r0].
    + apply Hold. unfold sets in ST. destruct (e_status e) as [|l] eqn:ES; apply Nat.eqb_eq in ST.
      * exfalso. rewrite Forall_forall in BD. specialize (BD r0 I).
        apply NI, in_map_iff. exists r0. split; auto. unfold rkey. f_equal; [congruence|lia].
      * destruct OK as (_ & _ & _ & foc0 & O4 & O5 & _). exists foc0. split; auto. eapply O5; eauto.
        destruct (Nat.eq_dec (ar_run r0) cur) as [E|E]; [|lia].
        exfalso. apply NI, in_map_iff. exists r0. split; auto. unfold rkey. congruence.
    + rewrite FC in FC0. injection FC0 as <- _. auto.
Qed.

(* ---- hydration ---- *)

Definition eid (e : entry) : nat := sp_id (e_spec e).
Definition fresh_entry (t : wtest) : entry := {| e_spec := wt_spec t; e_status := HasNonFailingAttempt |}.

Definition last_id (ws : list wtest) (d : assembled) : assembled :=
  match rev ws with [] => d | t :: _ => WaitingForEndOfHydration (id_of t) false end.

Lemma last_id_snoc ws t d : last_id (ws ++ [t]) d = WaitingForEndOfHydration (id_of t) false.
Proof. unfold last_id. now rewrite rev_unit. Qed.

Lemma last_id_cons t ws d : last_id (t :: ws) d = last_id ws (WaitingForEndOfHydration (id_of t) false).
Proof.
  unfold last_id. simpl. destruct (rev ws) as [|a l] eqn:E; simpl; auto.
Qed.

Definition not_hydrated (s : assembled) : Prop := match s with Hydrated _ _ => False | _ => True end.

Lemma hydrate_items_spec ws : forall t, not_hydrated (tr_state t) -> index_ok t ->
  NoDup (map eid (tr_entries t) ++ map id_of ws) ->
  exists t', hydrate_items t ws = Some t' /\ tr_entries t' = tr_entries t ++ map fresh_entry ws /\ index_ok t' /\
    tr_max t' = tr_max t /\ tr_current t' = tr_current t /\ tr_state t' = last_id ws (tr_state t) /\ not_hydrated (tr_state t').
Proof.
  induction ws as [|x ws IH]; intros t NH IX ND; simpl.
  - exists t. rewrite app_nil_r. repeat split; auto.
  - unfold hydrate_item.
    assert (E : note_seen_manifest_item (tr_state t) (sp_id (wt_spec x)) = Some (WaitingForEndOfHydration (id_of x) false))
      by (unfold note_seen_manifest_item, id_of; destruct (tr_state t); simpl in NH; tauto).
    rewrite E. edestruct IH as (t' & H1 & H2 & H3 & H4 & H5 & H6 & H7); [| | |rewrite H1; exists t'; split; [reflexivity|]].
    + simpl. exact I.
    + intros i e He. simpl in *.
      assert (NI : ~ In (id_of x) (map eid (tr_entries t))).
      { apply NoDup_remove_2 in ND. intros I. apply ND, in_or_app. auto. }
      destruct (Nat.lt_ge_cases i (length (tr_entries t))) as [L|L].
      * rewrite nth_error_app1 in He by auto. destruct (Nat.eqb_spec (sp_id (e_spec e)) (sp_id (wt_spec x))) as [Q|Q]; [|now apply IX].
        exfalso. apply NI. apply in_map_iff. exists e. split; [exact Q|]. eapply nth_error_In; eauto.
      * rewrite nth_error_app2 in He by auto. destruct (i - length (tr_entries t)) as [|k] eqn:Q; simpl in He; [|destruct k; discriminate].
        injection He as <-. simpl. rewrite Nat.eqb_refl. f_equal. lia.
    + simpl. rewrite map_app. simpl. rewrite <- app_assoc. exact ND.
    + simpl in *. rewrite H2, <- app_assoc. repeat split; auto. rewrite H6. symmetry. apply last_id_cons.
Qed.

(* ---- the invariant ---- *)

Definition with_fetcher (w : world) (f : fetcher) : world :=
  {| w_fetcher := f; w_answers := w_answers w; w_results := w_results w; w_ended := w_ended w; w_panicked := w_panicked w |}.

Notation trk w := (f_retry (w_fetcher w)).
Notation srcs w := (f_sources (w_fetcher w)).

Record Inv (ss0 : list (list reply)) (max : nat) (w : world) (H1 H2 O C : list wtest) : Prop := {
  i_panic : w_panicked w = false;
  i_max : tr_max (trk w) = max;
  i_cur : 1 <= tr_current (trk w) <= max;
  i_split : handed w = H1 ++ H2;
  i_old : handed w = O ++ C;
  i_src : exists X, source_tests ss0 = H1 ++ X /\ (w_ended w = false -> X = source_tests (srcs w)) /\ (srcs w = [] -> X = []);
  i_cmp : complete ss0 -> w_ended w = false -> complete (srcs w);
  i_first : Forall (fun t => wt_run t = 1) H1;
  i_later : Forall (fun t => 1 < wt_run t) H2;
  i_waits : srcs w <> [] -> tr_current (trk w) = 1 /\ not_hydrated (tr_state (trk w));
  i_att1 : tr_current (trk w) = 1 -> H2 = [] /\ O = [];
  i_ents : map eid (tr_entries (trk w)) = map id_of H1;
  i_idx : index_ok (trk w);
  i_ids : incl (map id_of (handed w)) (map id_of H1);
  i_ok : Forall (entry_ok (w_results w) (tr_current (trk w))) (tr_entries (trk w));
  i_res : exists later, map key (handed w) = map rkey (w_results w) ++ later;
  i_o : Forall (fun t => 1 <= wt_run t < tr_current (trk w)) O;
  i_c : Forall (fun t => wt_run t = tr_current (trk w)) C;
  i_len : length O <= length (w_results w);
  i_nd : NoDup (map key (handed w));
  i_state : match tr_state (trk w) with
            | NotStarted => handed w = [] /\ (srcs w = [] -> w_ended w = true)
            | WaitingForEndOfHydration l p =>
                srcs w <> [] /\ exists C' t, C = C' ++ [t] /\ id_of t = l /\ (p = true <-> length (w_results w) = length (handed w))
            | Hydrated l p =>
                srcs w = [] /\ exists C' t, C = C' ++ [t] /\ id_of t = l /\ (p = true <-> length (w_results w) = length (handed w))
            end;
  i_ans : (w_ended w = false -> Forall (fun b => b_eow b = false) (w_answers w)) /\
          exists bs tl, w_answers w = bs ++ tl /\ Forall (fun b => b_eow b = false /\ b_work b <> []) bs /\
            (tl = [] \/ w_ended w = true /\ tl = [{| b_work := []; b_eow := true |}])
}.

Lemma inv_start ss0 max : 1 <= max -> proper ss0 -> Inv ss0 max (start ss0 max) [] [] [] [].
Proof.
  intros M (NE & _). constructor; cbn [start w_panicked w_fetcher w_answers w_results w_ended f_retry f_sources new_tracker
    tr_max tr_current tr_state tr_entries]; unfold INIT_RUN_NUMBER; auto.
  - exists (source_tests ss0). repeat split; auto. intros; contradiction.
  - intros _. split; simpl; auto.
  - intros i e He. destruct i; discriminate.
  - intros x [].
  - exists []. reflexivity.
  - constructor.
  - split; [constructor|]. exists [], []. auto.
Qed.

Lemma inv_runs ss0 max w H1 H2 O C : Inv ss0 max w H1 H2 O C ->
  Forall (fun r => 1 <= ar_run r <= tr_current (trk w)) (w_results w).
Proof.
  intros I. destruct (i_res _ _ _ _ _ _ _ I) as [later E]. apply Forall_forall. intros r Hr.
  assert (In (rkey r) (map key (handed w))) as Hin by (rewrite E; apply in_or_app; left; now apply in_map).
  apply in_map_iff in Hin as (t & Ht & It). injection Ht as _ <-.
  rewrite (i_old _ _ _ _ _ _ _ I) in It. apply in_app_or in It as [It|It].
  - pose proof (i_o _ _ _ _ _ _ _ I) as F. rewrite Forall_forall in F. specialize (F t It). lia.
  - pose proof (i_c _ _ _ _ _ _ _ I) as F. rewrite Forall_forall in F. specialize (F t It).
    pose proof (i_cur _ _ _ _ _ _ _ I). lia.
Qed.

Lemma inv_ids_nodup ss0 max w H1 H2 O C : proper ss0 -> Inv ss0 max w H1 H2 O C -> NoDup (map id_of H1).
Proof.
  intros (_ & ND & _) I. destruct (i_src _ _ _ _ _ _ _ I) as (X & E & _). rewrite E, map_app in ND.
  now apply NoDup_app_l in ND.
Qed.

Lemma nth_error_upd_map {A} (f : A -> nat) l i e e' : nth_error l i = Some e -> f e' = f e -> map f (upd i e' l) = map f l.
Proof.
  revert i. induction l as [|a l IH]; intros [|i] H E; simpl in *; try discriminate; auto.
  - injection H as ->. now rewrite E.
  - f_equal; auto.
Qed.

Lemma Forall_upd_rest {A} (P Q : A -> Prop) l i x : (forall j e, j <> i -> nth_error l j = Some e -> P e -> Q e) -> Q x ->
  Forall P l -> Forall Q (upd i x l).
Proof.
  intros H HQ F. apply Forall_forall. intros y Hy. apply In_nth_error in Hy as [j Hj].
  rewrite nth_error_upd in Hj. destruct (Nat.eqb_spec i j) as [E|E].
  - subst. destruct (Nat.ltb j (length l)); [injection Hj as <-; auto|discriminate].
  - apply H with j; auto. rewrite Forall_forall in F. apply F. eapply nth_error_In; eauto.
Qed.

Definition accounted (w : world) (t : tracker) (r : aresult) : world :=
  {| w_fetcher := {| f_sources := srcs w; f_retry := t |}; w_answers := w_answers w;
     w_results := w_results w ++ [r]; w_ended := w_ended w; w_panicked := false |}.

Lemma account_inv ss0 max w H1 H2 O C r rest : proper ss0 -> Inv ss0 max w H1 H2 O C ->
  map key (handed w) = map rkey (w_results w ++ [r]) ++ rest ->
  exists t, account_results (trk w) [r] = Some t /\ Inv ss0 max (accounted w t r) H1 H2 O C.
Proof.
  intros PR I E. pose proof (inv_runs _ _ _ _ _ _ _ I) as RB. pose proof (inv_ids_nodup _ _ _ _ _ _ _ PR I) as ND1.
  destruct I as [P1 P2 P3 P4 P5 P6 P6' P7 P8 P9 P10 P11 P12 P13 P14 P15 P16 P17 P18 P19 P20 P21].
  rewrite map_app, <- app_assoc in E. simpl in E.
  (* the test r reports *)
  assert (exists A t B, handed w = A ++ t :: B /\ map key A = map rkey (w_results w) /\ key t = rkey r /\ map key B = rest)
    as (A & t & B & HH & HA & HT & HB).
  { apply map_eq_app in E as (A & L & E1 & E2 & E3). apply map_eq_cons in E3 as (t & B & E4 & E5 & E6).
    exists A, t, B. subst. auto. }
  assert (LA : length A = length (w_results w)) by (rewrite <- (map_length key A), HA; apply map_length).
  (* it is of the current attempt *)
  assert (exists C1, A = O ++ C1 /\ C = C1 ++ t :: B) as (C1 & EA & EC).
  { rewrite P5 in HH. assert (LO : length O <= length A) by lia.
    clear -HH LO. revert A HH LO. induction O as [|o O IH]; intros A HH LO; simpl in *; [exists A; auto|].
    destruct A as [|a A]; simpl in *; [lia|]. injection HH as -> HH. destruct (IH A HH ltac:(lia)) as (C1 & -> & ->). exists C1. auto. }
  assert (RC : ar_run r = tr_current (trk w)).
  { injection HT as _ <-. rewrite Forall_forall in P17. apply P17. rewrite EC. apply in_elt. }
  assert (RW : ar_work r = id_of t) by (injection HT as <- _; reflexivity).
  assert (NI : ~ In (rkey r) (map rkey (w_results w))).
  { rewrite <- HA, <- HT. rewrite HH, map_app in P19. simpl in P19. apply NoDup_remove_2 in P19. intros K; apply P19, in_or_app; auto. }
  (* its entry *)
  assert (exists i e, nth_error (tr_entries (trk w)) i = Some e /\ sp_id (e_spec e) = ar_work r) as (i & e & Hi & He).
  { assert (K : In (id_of t) (map id_of H1)) by (apply P13, in_map; rewrite HH; apply in_elt).
    rewrite <- P11 in K. apply in_map_iff in K as (e & Q & K). apply In_nth_error in K as [i K]. exists i, e. split; auto. unfold eid in Q. congruence. }
  assert (IX : tr_indices (trk w) (ar_work r) = Some i) by (rewrite <- He; now apply P12).
  assert (NST : tr_state (trk w) <> NotStarted).
  { intros K. rewrite K in P20. destruct P20 as [P20 _]. rewrite P20 in HH. destruct A; discriminate. }
  assert (OTH : forall j e0, j <> i -> nth_error (tr_entries (trk w)) j = Some e0 -> sp_id (e_spec e0) <> ar_work r).
  { intros j e0 D Hj K. assert (Some i = Some j) by (rewrite <- IX, <- K; now apply P12). congruence. }
  simpl. rewrite (account_one_eq (ar_work r) (ar_run r) (ar_results r) (trk w) i e IX Hi). fold (failing_cases r).
  set (t1 := match failing_cases r with x :: _ => if sets e (ar_run r) then add_first (trk w) i (ar_run r) x e else trk w | [] => trk w end).
  assert (T1 : tr_max t1 = tr_max (trk w) /\ tr_current t1 = tr_current (trk w) /\ tr_state t1 = tr_state (trk w) /\
               map eid (tr_entries t1) = map eid (tr_entries (trk w)) /\ index_ok t1 /\
               Forall (entry_ok (w_results w ++ [r]) (tr_current (trk w))) (tr_entries t1)).
  { rewrite Forall_forall in P14. pose proof (P14 e (nth_error_In _ _ Hi)) as OKe.
    assert (SAME : (failing r = false \/ sets e (ar_run r) = false) -> Forall (entry_ok (w_results w ++ [r]) (tr_current (trk w))) (tr_entries (trk w))).
    { intros D. apply Forall_forall. intros e0 I0. apply entry_ok_other; auto.
      apply In_nth_error in I0 as [j Hj]. destruct (Nat.eq_dec j i) as [->|D'].
      - rewrite Hi in Hj. injection Hj as <-. rewrite RC in D. right. exact D.
      - left. eapply OTH; eauto. }
    unfold t1. destruct (failing_cases r) as [|x xs] eqn:FC.
    - apply failing_cases_nil in FC. repeat split; auto.
    - destruct (sets e (ar_run r)) eqn:SE; [|repeat split; auto]. simpl. repeat split; auto.
      + eapply nth_error_upd_map; eauto.
      + intros j e0 Hj. simpl in *. rewrite nth_error_upd in Hj. destruct (Nat.eqb_spec i j) as [->|D]; [|now apply P12].
        destruct (Nat.ltb j (length (tr_entries (trk w)))); [|discriminate]. injection Hj as <-. simpl. now apply P12.
      + eapply Forall_upd_rest with (P := fun e0 => In e0 (tr_entries (trk w))).
        * intros j e0 D Hj I0. apply entry_ok_other; auto. left. eapply OTH; eauto.
        * rewrite RC. rewrite RC in SE. eapply entry_ok_set; eauto. lia.
        * apply Forall_forall. auto. }
  destruct T1 as (T1 & T2 & T3 & T4 & T5 & T6).
  assert (exists s', note_accounted_result (tr_state t1) (ar_work r) = Some s' /\
          match s' with
          | NotStarted => False
          | WaitingForEndOfHydration l p =>
              srcs w <> [] /\ exists C' t, C = C' ++ [t] /\ id_of t = l /\ (p = true <-> length (w_results w ++ [r]) = length (handed w))
          | Hydrated l p =>
              srcs w = [] /\ exists C' t, C = C' ++ [t] /\ id_of t = l /\ (p = true <-> length (w_results w ++ [r]) = length (handed w))
          end /\ (not_hydrated (tr_state (trk w)) -> not_hydrated s')) as (s' & HS & QS & QH).
  { assert (LAST : forall C' t' l, C = C' ++ [t'] -> id_of t' = l -> Nat.eqb (ar_work r) l = true <-> length (w_results w ++ [r]) = length (handed w)).
    { intros C' t' l EC' El. rewrite app_length, <- LA, HH, app_length. simpl.
      assert (NDC : NoDup (map id_of C)).
      { rewrite P5, map_app in P19. apply NoDup_app_r in P19. clear -P19 P17. induction C as [|c C IH]; simpl in *; constructor.
        - intros K. inversion P19 as [|? ? N1 N2]; subst. apply N1. apply in_map_iff in K as (c' & Q & K). apply in_map_iff. exists c'. split; auto.
          inversion P17 as [|? ? F1 F2]; subst. rewrite Forall_forall in F2. unfold key. rewrite Q, (F2 c' K), F1. reflexivity.
        - apply IH; [now inversion P17|now inversion P19]. }
      rewrite Nat.eqb_eq, RW, <- El. destruct B as [|b B'] using rev_ind.
      - simpl. rewrite EC in EC'. apply app_inj_tail in EC' as [_ ->]. tauto.
      - rewrite app_length. simpl. split; [|lia]. intros Q. exfalso. rewrite EC in EC', NDC.
        rewrite app_comm_cons, app_assoc in EC'. apply app_inj_tail in EC' as [_ ->].
        rewrite map_app in NDC. apply NoDup_app_r in NDC. simpl in NDC. inversion NDC as [|? ? N1 N2]; subst. apply N1.
        rewrite Q, map_app. apply in_or_app. right. simpl. auto. }
    rewrite T3. destruct (tr_state (trk w)) as [|l p|l p]; [congruence| |]; simpl; destruct P20 as (Q1 & C' & t' & Q2 & Q3 & Q4);
      eexists; (split; [reflexivity|]); (split; [|tauto]); split; auto; exists C', t'; repeat split; auto; apply LAST with C' t'; auto. }
  rewrite HS. exists (set_state t1 s'). split; [reflexivity|].
  constructor; cbn [accounted w_panicked w_fetcher w_answers w_results w_ended f_retry f_sources set_state tr_max tr_current tr_state tr_entries]; rewrite ?T1, ?T2, ?T4; auto.
  - intros K. destruct (P9 K). auto.
  - exists rest. change (handed (accounted w (set_state t1 s') r)) with (handed w). rewrite map_app, <- app_assoc. exact E.
  - rewrite app_length. simpl. lia.
  - change (handed (accounted w (set_state t1 s') r)) with (handed w). destruct s'; [destruct QS|exact QS|exact QS].
Qed.

(* ---- fetching ---- *)

Definition after (w : world) (f : fetcher) (r : fetched) : world :=
  match r with
  | Tests b => {| w_fetcher := f; w_answers := w_answers w ++ [b]; w_results := w_results w; w_ended := b_eow b; w_panicked := false |}
  | FetchError => {| w_fetcher := f; w_answers := w_answers w; w_results := w_results w; w_ended := true; w_panicked := false |}
  | StillWaiting => {| w_fetcher := f; w_answers := w_answers w; w_results := w_results w; w_ended := false; w_panicked := false |}
  | Panic | OutOfFuel => {| w_fetcher := f; w_answers := w_answers w; w_results := w_results w; w_ended := false; w_panicked := true |}
  end.

Inductive fetch_says (w : world) (H1 : list wtest) (max : nat) : fetched -> Prop :=
| says_source b Y : b_work b <> [] -> b_eow b = false -> source_tests (srcs w) = b_work b ++ Y -> tr_current (trk w) = 1 ->
    fetch_says w H1 max (Tests b)
| says_end : source_tests (srcs w) = [] ->
    (tr_current (trk w) = max \/
     length (w_results w) = length (handed w) /\ forall id, In id (map id_of H1) -> fails_through (w_results w) id (tr_current (trk w)) = false) ->
    fetch_says w H1 max (Tests {| b_work := []; b_eow := true |})
| says_retry b : source_tests (srcs w) = [] -> length (w_results w) = length (handed w) -> tr_current (trk w) < max -> b_eow b = false ->
    b_work b <> [] -> handed w <> [] ->
    Forall (fun t => wt_run t = tr_current (trk w) + 1) (b_work b) ->
    map id_of (b_work b) = filter (fun id => fails_through (w_results w) id (tr_current (trk w))) (map id_of H1) ->
    Forall (fun t => forall r x xs, In r (w_results w) -> ar_work r = id_of t -> failing_cases r = x :: xs -> In x (focus_of t)) (b_work b) ->
    Forall (fun t => exists foc, sp_focus (wt_spec t) = Some foc /\ forall x, In x foc -> exists r, In r (w_results w) /\ ar_work r = id_of t /\ In x (failing_cases r)) (b_work b) ->
    fetch_says w H1 max (Tests b)
| says_error : ~ complete (srcs w) -> fetch_says w H1 max FetchError
| says_waits_source : ~ complete (srcs w) -> fetch_says w H1 max StillWaiting
| says_waits_report : source_tests (srcs w) = [] -> length (w_results w) < length (handed w) -> tr_current (trk w) < max ->
    fetch_says w H1 max StillWaiting.

Lemma res_le w : (exists later, map key (handed w) = map rkey (w_results w) ++ later) -> length (w_results w) <= length (handed w).
Proof. intros [l E]. rewrite <- (map_length key (handed w)), E, app_length, map_length. lia. Qed.

Lemma entry_subset rs cur e : 1 <= cur -> entry_ok rs cur e ->
  match e_status e with AlwaysFailedOn last => Nat.eqb last cur | HasNonFailingAttempt => false end = fails_through rs (eid e) cur.
Proof.
  intros C OK. unfold entry_ok in OK. destruct (e_status e) as [|l].
  - destruct OK as [OK _]. symmetry. apply not_true_iff_false. rewrite fails_through_spec. intros K. unfold eid in K. rewrite K in OK; [discriminate|lia].
  - destruct OK as (B & T & N & _). destruct (Nat.eqb_spec l cur) as [->|D]; [unfold eid; now rewrite T|].
    symmetry. apply not_true_iff_false. rewrite fails_through_spec. intros K. unfold eid in K. rewrite K in N; [discriminate|lia].
Qed.

Lemma failing_subset_ids rs cur es : 1 <= cur -> Forall (entry_ok rs cur) es ->
  map sp_id (failing_subset es cur) = filter (fun id => fails_through rs id cur) (map eid es).
Proof.
  intros C. induction 1 as [|e es OK _ IH]; simpl; auto. rewrite map_app, IH, <- (entry_subset rs cur e C OK).
  destruct (e_status e) as [|l]; simpl; auto. destruct (Nat.eqb l cur); reflexivity.
Qed.

Lemma failing_subset_focus rs cur es : Forall (fun r => ar_run r <= cur) rs -> Forall (entry_ok rs cur) es ->
  Forall (fun s => forall r x xs, In r rs -> ar_work r = sp_id s -> failing_cases r = x :: xs ->
                   In x (match sp_focus s with Some l => l | None => [] end)) (failing_subset es cur) /\
  Forall (fun s => exists foc, sp_focus s = Some foc /\ forall x, In x foc -> exists r, In r rs /\ ar_work r = sp_id s /\ In x (failing_cases r)) (failing_subset es cur).
Proof.
  intros B. induction 1 as [|e es OK _ [IH1 IH2]]; simpl; auto. rewrite !Forall_app.
  unfold entry_ok in OK. destruct (e_status e) as [|l]; auto. destruct (Nat.eqb_spec l cur) as [->|]; auto.
  destruct OK as (_ & _ & _ & foc & F & OK & OK2). split; split; auto; constructor; auto.
  - rewrite F. intros r x xs I W FC. eapply OK; eauto. rewrite Forall_forall in B. auto.
  - exists foc. auto.
Qed.

Lemma entry_ok_next rs cur e : entry_ok rs cur e -> entry_ok rs (cur + 1) e.
Proof. unfold entry_ok. destruct (e_status e); auto. intros (B & R). split; auto. lia. Qed.

Lemma handed_snoc (f : fetcher) (an : list bundle) (b : bundle) (rs : list aresult) (e p : bool) :
  handed {| w_fetcher := f; w_answers := an ++ [b]; w_results := rs; w_ended := e; w_panicked := p |} = flat_map b_work an ++ b_work b.
Proof. unfold handed. simpl. rewrite flat_map_app. simpl. now rewrite app_nil_r. Qed.

Lemma after_waiting w : w_ended w = false -> w_panicked w = false -> after w {| f_sources := srcs w; f_retry := trk w |} StillWaiting = w.
Proof. destruct w as [[] ? ? ? ?]. simpl. intros -> ->. reflexivity. Qed.

Definition eow_bundle := {| b_work := []; b_eow := true |}.

Lemma ans_eow ss0 max w H1 H2 O C : Inv ss0 max w H1 H2 O C -> w_ended w = false ->
  (true = false -> Forall (fun b => b_eow b = false) (w_answers w ++ [eow_bundle])) /\
  exists bs tl, w_answers w ++ [eow_bundle] = bs ++ tl /\ Forall (fun b => b_eow b = false /\ b_work b <> []) bs /\
    (tl = [] \/ true = true /\ tl = [{| b_work := []; b_eow := true |}]).
Proof.
  intros I E. split; [discriminate|]. destruct (i_ans _ _ _ _ _ _ _ I) as (_ & bs & tl & E1 & E2 & [E3|[E3 _]]); [|congruence].
  exists bs, [eow_bundle]. subst tl. rewrite app_nil_r in E1. rewrite E1. split; auto.
Qed.

Lemma ans_more ss0 max w H1 H2 O C b : Inv ss0 max w H1 H2 O C -> w_ended w = false -> b_eow b = false -> b_work b <> [] ->
  (false = false -> Forall (fun b => b_eow b = false) (w_answers w ++ [b])) /\
  exists bs tl, w_answers w ++ [b] = bs ++ tl /\ Forall (fun b => b_eow b = false /\ b_work b <> []) bs /\
    (tl = [] \/ false = true /\ tl = [{| b_work := []; b_eow := true |}]).
Proof.
  intros I E B N. destruct (i_ans _ _ _ _ _ _ _ I) as (E0 & bs & tl & E1 & E2 & [E3|[E3 _]]); [|congruence].
  split; [intros _; apply Forall_app; split; auto|].
  exists (bs ++ [b]), []. subst tl. rewrite app_nil_r in *. rewrite E1. split; auto. split; auto. apply Forall_app. auto.
Qed.

Lemma fetch_retries_inv ss0 max w H1 H2 O C : proper ss0 -> Inv ss0 max w H1 H2 O C -> w_ended w = false -> srcs w = [] ->
  exists f' r, fetch_retries (w_fetcher w) = (f', r) /\ fetch_says w H1 max r /\
    exists H2' O' C', Inv ss0 max (after w f' r) H1 H2' O' C'.
Proof.
  intros PR I NE SN. pose proof (inv_runs _ _ _ _ _ _ _ I) as RB. pose proof (inv_ids_nodup _ _ _ _ _ _ _ PR I) as ND1.
  pose proof (ans_eow _ _ _ _ _ _ _ I NE) as AE. pose proof (fun b => ans_more ss0 max w H1 H2 O C b I NE) as AM.
  pose proof I as I0.
  destruct I as [P1 P2 P3 P4 P5 P6 P6' P7 P8 P9 P10 P11 P12 P13 P14 P15 P16 P17 P18 P19 P20 P21].
  assert (SRC0 : source_tests (srcs w) = []) by now rewrite SN.
  assert (HE : bundle -> Inv ss0 max w H1 H2 O C ->
               Inv ss0 max (after w {| f_sources := srcs w; f_retry := trk w |} (Tests eow_bundle)) H1 H2 O C).
  { intros _ _. assert (HH : handed (after w {| f_sources := srcs w; f_retry := trk w |} (Tests eow_bundle)) = handed w).
    { unfold after. rewrite handed_snoc. simpl. apply app_nil_r. }
    constructor; rewrite ?HH; cbn [after w_panicked w_fetcher w_answers w_results w_ended f_retry f_sources eow_bundle b_eow]; auto.
    - destruct P6 as (X & X1 & X2 & X3). exists X. repeat split; auto; discriminate. 
    - destruct (tr_state (trk w)); auto. destruct P20; auto. }
  unfold fetch_retries, try_assemble. rewrite P2. destruct (Nat.eqb_spec (tr_current (trk w)) max) as [EM|EM].
  - exists {| f_sources := srcs w; f_retry := trk w |}, (Tests eow_bundle). split; auto. split; [apply says_end; auto|].
    exists H2, O, C. apply HE; auto. exact eow_bundle.
  - destruct (tr_state (trk w)) as [|l p|l p] eqn:ST.
    + destruct P20 as [_ K]. rewrite K in NE by auto. discriminate.
    + destruct P20 as [K _]. contradiction.
    + destruct P20 as (_ & C' & t & EC & Et & EP). destruct p; simpl.
      * assert (LEN : length (w_results w) = length (handed w)) by now apply EP.
        set (sub := failing_subset (tr_entries (trk w)) (tr_current (trk w))).
        assert (SI : map sp_id sub = filter (fun id => fails_through (w_results w) id (tr_current (trk w))) (map id_of H1)).
        { unfold sub. rewrite (failing_subset_ids (w_results w)), P11; auto. lia. }
        set (ts := map (fun s => {| wt_spec := s; wt_run := tr_current (trk w) + 1 |}) sub).
        assert (TI : map id_of ts = map sp_id sub) by (unfold ts; rewrite map_map; reflexivity).
        destruct (rev ts) as [|lt rts] eqn:ER.
        -- exists {| f_sources := srcs w; f_retry := trk w |}, (Tests eow_bundle). split; auto. split.
           ++ apply says_end; auto. right. split; auto. intros id Hid.
              assert (TN : ts = []) by (rewrite <- (rev_involutive ts), ER; reflexivity). rewrite TN in TI. rewrite <- TI in SI. simpl in SI.
              destruct (fails_through (w_results w) id (tr_current (trk w))) eqn:FT; auto.
              assert (K : In id (filter (fun id => fails_through (w_results w) id (tr_current (trk w))) (map id_of H1))) by (apply filter_In; auto).
              rewrite <- SI in K. destruct K.
           ++ exists H2, O, C. apply HE; auto. exact eow_bundle.
        -- assert (ETS : ts = rev rts ++ [lt]) by (rewrite <- (rev_involutive ts), ER; reflexivity).
           assert (TNE : ts <> []) by (rewrite ETS; destruct (rev rts); discriminate).
           assert (HNE : handed w <> []) by (rewrite P5, EC; destruct O; [destruct C'|]; discriminate).
           assert (TR : Forall (fun t => wt_run t = tr_current (trk w) + 1) ts).
           { unfold ts. apply Forall_forall. intros x Hx. apply in_map_iff in Hx as (y & <- & _). reflexivity. }
           set (f' := {| f_sources := _; f_retry := _ |}). set (b := {| b_work := ts; b_eow := false |}).
           exists f', (Tests b). split; auto. split.
           ++ assert (GO : forall P : spec -> Prop, Forall P sub -> Forall (fun t => P (wt_spec t)) ts).
              { intros P F. unfold ts. apply Forall_forall. intros x Hx. apply in_map_iff in Hx as (s & <- & Hs). rewrite Forall_forall in F. exact (F s Hs). }
              pose proof (failing_subset_focus (w_results w) (tr_current (trk w)) (tr_entries (trk w))) as FF.
              fold sub in FF. assert (FF' := FF ltac:(eapply Forall_impl; [|exact RB]; simpl; intros; lia) P14). clear FF. destruct FF' as [F1 F2].
              apply GO in F1. apply GO in F2.
              apply says_retry; auto; simpl; [lia| rewrite TI; auto].
           ++ exists (H2 ++ ts), (handed w), ts.
              assert (HH : handed (after w f' (Tests b)) = handed w ++ ts) by (unfold after; apply handed_snoc).
              assert (ALL : Forall (fun t => 1 <= wt_run t <= tr_current (trk w)) (handed w)).
              { rewrite P5. apply Forall_app. split; [eapply Forall_impl; [|exact P16]|eapply Forall_impl; [|exact P17]]; simpl; intros; lia. }
              constructor; rewrite ?HH; cbn [after w_panicked w_fetcher w_answers w_results w_ended f_retry f_sources b b_eow f' tr_max tr_current tr_state tr_entries]; auto.
              ** lia.
              ** rewrite P4, app_assoc. reflexivity.
              ** destruct P6 as (X & X1 & X2 & X3). exists X. auto.
              ** apply Forall_app. split; auto. eapply Forall_impl; [|exact TR]. simpl. intros; lia.
              ** intros K. contradiction.
              ** intros K. lia.
              ** rewrite map_app. apply incl_app; auto. rewrite TI, SI. intros x Hx. apply filter_In in Hx. tauto.
              ** eapply Forall_impl; [|exact P14]. intros e. apply entry_ok_next.
              ** destruct P15 as [later P15]. rewrite map_app, P15, <- app_assoc. eauto.
              ** eapply Forall_impl; [|exact ALL]. simpl. intros; lia.
              ** lia.
              ** rewrite map_app. apply NoDup_app_intro; auto.
                 --- apply (NoDup_map_inv fst). rewrite map_map. simpl. change (fun x => id_of x) with id_of. rewrite TI, SI. now apply NoDup_filter.
                 --- intros [i k] K1 K2. apply in_map_iff in K1 as (x & Ex & K1). apply in_map_iff in K2 as (y & Ey & K2).
                     rewrite Forall_forall in ALL, TR. specialize (ALL x K1). specialize (TR y K2). injection Ex as _ <-. injection Ey as _ Ey. lia.
              ** split; auto. exists (rev rts), lt. split; auto. split; auto. rewrite app_length, LEN.
                 destruct ts; [contradiction|]. simpl. split; [discriminate|lia].
      * exists {| f_sources := srcs w; f_retry := trk w |}, StillWaiting. split; auto. split.
        -- apply says_waits_report; auto; [|lia]. pose proof (res_le w P15).
           destruct (Nat.eq_dec (length (w_results w)) (length (handed w))) as [Q|Q]; [apply EP in Q; discriminate|lia].
        -- exists H2, O, C. now rewrite after_waiting.
Qed.

Lemma complete_tail b script rest : complete ((Bundle b :: script) :: rest) ->
  complete (if b_eow b then rest else script :: rest).
Proof.
  intros K. inversion K as [|? ? K1 K2]; subst. destruct (b_eow b) eqn:E; auto. constructor; auto.
  simpl in K1. rewrite E in K1. destruct (served script); auto.
Qed.

Lemma source_tests_cons b script rest : source_tests ((Bundle b :: script) :: rest) =
  b_work b ++ source_tests (if b_eow b then rest else script :: rest).
Proof.
  simpl. destruct (b_eow b); auto. simpl. destruct (served script) as [ts e]. now rewrite <- app_assoc.
Qed.

Lemma is_nil_true {A} (l : list A) : is_nil l = true <-> l = [].
Proof. destruct l; simpl; split; congruence. Qed.

(* the fetcher's sources go on, nothing else changes *)
Lemma inv_skip ss0 max w H1 H2 O C b script rest : Inv ss0 max w H1 H2 O C -> w_ended w = false ->
  srcs w = (Bundle b :: script) :: rest -> b_work b = [] -> (if b_eow b then rest else script :: rest) <> [] ->
  Inv ss0 max (with_fetcher w {| f_sources := if b_eow b then rest else script :: rest; f_retry := trk w |}) H1 H2 O C.
Proof.
  intros I NE ES EW NN. pose proof (complete_tail b script rest) as CT.
  destruct I as [P1 P2 P3 P4 P5 P6 P6' P7 P8 P9 P10 P11 P12 P13 P14 P15 P16 P17 P18 P19 P20 P21].
  assert (NS : srcs w <> []) by (rewrite ES; discriminate).
  set (s' := if b_eow b then rest else script :: rest) in *.
  assert (SE : source_tests (srcs w) = source_tests s') by (rewrite ES, source_tests_cons, EW; reflexivity).
  constructor; cbn [with_fetcher w_panicked w_fetcher w_answers w_results w_ended f_retry f_sources]; auto.
  - destruct P6 as (X & X1 & X2 & X3). exists X. split; auto. split; [rewrite <- SE; auto|intros; contradiction].
  - intros K1 K2. apply CT. rewrite <- ES. auto.
  - destruct (tr_state (trk w)) as [|l p|l p]; auto.
    + destruct P20. auto.
    + destruct P20. auto.
    + destruct P20. contradiction.
Qed.

Lemma fetch_loop_inv ss0 max : proper ss0 -> forall fuel w H1 H2 O C, Inv ss0 max w H1 H2 O C -> w_ended w = false ->
  length (concat (srcs w)) < fuel ->
  exists f' r, fetch_loop fuel (w_fetcher w) = (f', r) /\ fetch_says w H1 max r /\
    exists H1' H2' O' C', Inv ss0 max (after w f' r) H1' H2' O' C' /\
      (match r with Tests b => True | _ => H1' = H1 end).
Proof.
  intros PR. induction fuel as [|fuel IH]; intros w H1 H2 O C I NE LF; [lia|].
  cbn [fetch_loop]. destruct (srcs w) as [|[|[b|] script] rest] eqn:ES.
  - destruct (fetch_retries_inv ss0 max w H1 H2 O C PR I NE ES) as (f' & r & E1 & E2 & H2' & O' & C' & E3).
    exists f', r. split; auto. split; auto. exists H1, H2', O', C'. split; auto. destruct r; auto.
  - exists (w_fetcher w), StillWaiting. split; auto. split.
    + apply says_waits_source. rewrite ES. intros K. inversion K. simpl in *. discriminate.
    + exists H1, H2, O, C. split; auto. pose proof (i_panic _ _ _ _ _ _ _ I) as P1. replace (w_fetcher w) with {| f_sources := srcs w; f_retry := trk w |} by now destruct w as [[] ? ? ? ?]. now rewrite after_waiting.
  - (* a bundle *)
    set (s' := if b_eow b then rest else script :: rest).
    assert (LS : length (concat s') < fuel).
    { simpl in LF. rewrite app_length in LF. unfold s'. destruct (b_eow b); simpl; rewrite ?app_length; lia. }
    assert (SE : source_tests (srcs w) = b_work b ++ source_tests s') by (rewrite ES; apply source_tests_cons).
    assert (CT : complete (srcs w) -> complete s') by (rewrite ES; apply complete_tail).
    destruct (is_nil (b_work b) && negb (is_nil s')) eqn:SK.
    + apply andb_true_iff in SK as [K1 K2]. apply is_nil_true in K1. apply negb_true_iff in K2.
      assert (NN : s' <> []) by (intros Q; rewrite Q in K2; discriminate).
      pose proof (inv_skip ss0 max w H1 H2 O C b script rest I NE ES K1 NN) as I'. fold s' in I'.
      destruct (IH _ H1 H2 O C I' NE LS) as (f' & r & E1 & E2 & E3). exists f', r. split; auto. split; auto.
      rewrite K1 in SE. simpl in SE.
      assert (E2' := E2). destruct E2'; cbn [with_fetcher w_fetcher w_results f_sources f_retry] in *;
        change (handed (with_fetcher w {| f_sources := s'; f_retry := trk w |})) with (handed w) in *.
      * eapply says_source; eauto; rewrite SE; eauto.
      * apply says_end; auto; rewrite SE; auto.
      * apply says_retry; auto; rewrite SE; auto.
      * apply says_error; auto.
      * apply says_waits_source; auto.
      * apply says_waits_report; auto; rewrite SE; auto.
    + (* its tests are noted *)
      pose proof (inv_ids_nodup _ _ _ _ _ _ _ PR I) as ND1. pose proof I as I0.
      pose proof (fun b => ans_more ss0 max w H1 H2 O C b I NE) as AM. pose proof (ans_eow _ _ _ _ _ _ _ I NE) as AE.
      destruct I as [P1 P2 P3 P4 P5 P6 P6' P7 P8 P9 P10 P11 P12 P13 P14 P15 P16 P17 P18 P19 P20 P21].
      assert (NS : srcs w <> []) by (rewrite ES; discriminate). destruct (P9 NS) as [C1 NH].
      destruct (P10 C1) as [-> ->]. rewrite app_nil_r in P4. simpl in P5. assert (C = H1) as -> by congruence.
      destruct P6 as (X & X1 & X2 & X3). specialize (X2 NE). rewrite SE in X2.
      destruct PR as (PR1 & PR2 & PR3).
      assert (NDX : NoDup (map id_of H1 ++ map id_of (b_work b))).
      { rewrite X1, X2, map_app, map_app, app_assoc in PR2. now apply NoDup_app_l in PR2. }
      assert (B1 : Forall (fun t => wt_run t = 1 /\ sp_focus (wt_spec t) = None) (b_work b)).
      { rewrite X1, X2, !Forall_app in PR3. tauto. }
      edestruct (hydrate_items_spec (b_work b) (trk w) NH P12) as (t & T1 & T2 & T3 & T4 & T5 & T6 & T7); [rewrite P11; exact NDX|].
      assert (EIDS : map eid (tr_entries t) = map id_of (H1 ++ b_work b)).
      { rewrite T2, !map_app, P11. f_equal. rewrite map_map. reflexivity. }
      assert (RB := inv_runs _ _ _ _ _ _ _ I0). rewrite C1 in RB.
      assert (ND2 : NoDup (map key (H1 ++ b_work b))).
      { apply (NoDup_map_inv fst). rewrite map_map. change (map (fun x => fst (key x)) (H1 ++ b_work b)) with (map id_of (H1 ++ b_work b)).
        rewrite map_app. exact NDX. }
      assert (NFR : forall x, In x (b_work b) -> fails (w_results w) (id_of x) 1 = false).
      { intros x Hx. destruct (fails (w_results w) (id_of x) 1) eqn:FB; auto.
        apply existsb_exists in FB as (r0 & Hr0 & Q). rewrite !andb_true_iff, !Nat.eqb_eq in Q. destruct Q as [[Q1 Q2] _].
        destruct P15 as [later P15]. assert (K : In (rkey r0) (map key (handed w))) by (rewrite P15; apply in_or_app; left; now apply in_map).
        rewrite P4 in K. apply in_map_iff in K as (y & Q & K). injection Q as Q _.
        exfalso. clear -NDX K Hx Q Q1. induction H1 as [|h H1' IHH]; simpl in *; [tauto|]. inversion NDX as [|? ? N1 N2]; subst.
        destruct K as [->|K]; [|auto]. apply N1, in_or_app. right. rewrite Q, Q1. now apply in_map. }
      assert (OKS : Forall (entry_ok (w_results w) 1) (tr_entries t)).
      { rewrite T2. apply Forall_app. rewrite C1 in P14. split; auto. apply Forall_forall. intros e He. apply in_map_iff in He as (x & <- & Hx).
        unfold entry_ok. simpl. split; [apply NFR; auto|]. rewrite Forall_forall in B1. apply B1; auto. }
      (* the state after the bundle, with a given end state *)
      assert (BUILD : forall st eow,
        (match st with
         | NotStarted => H1 ++ b_work b = [] /\ (s' = [] -> eow = true)
         | WaitingForEndOfHydration l p => s' <> [] /\ exists C' t, H1 ++ b_work b = C' ++ [t] /\ id_of t = l /\ (p = true <-> length (w_results w) = length (H1 ++ b_work b))
         | Hydrated l p => s' = [] /\ exists C' t, H1 ++ b_work b = C' ++ [t] /\ id_of t = l /\ (p = true <-> length (w_results w) = length (H1 ++ b_work b))
         end) -> (s' <> [] -> not_hydrated st) ->
        forall w', w_panicked w' = false -> w_fetcher w' = {| f_sources := s'; f_retry := set_state t st |} -> handed w' = H1 ++ b_work b ->
          w_results w' = w_results w -> w_ended w' = eow ->
          ((w_ended w' = false -> Forall (fun b => b_eow b = false) (w_answers w')) /\
           exists bs tl, w_answers w' = bs ++ tl /\ Forall (fun b => b_eow b = false /\ b_work b <> []) bs /\
             (tl = [] \/ w_ended w' = true /\ tl = [{| b_work := []; b_eow := true |}])) ->
          Inv ss0 max w' (H1 ++ b_work b) [] [] (H1 ++ b_work b)).
      { intros st eow K1 K2 w' W1 W2 W3 W4 W5 W6.
        constructor; rewrite ?W1, ?W2, ?W3, ?W4, ?W5; cbn [f_retry f_sources set_state tr_max tr_current tr_state tr_entries];
          rewrite ?T4, ?T5, ?C1; auto.
        - lia.
        - now rewrite app_nil_r.
        - exists (source_tests s'). rewrite X1, X2, app_assoc. repeat split; auto. intros ->. reflexivity.
        - apply Forall_app. split; auto. eapply Forall_impl; [|exact B1]. simpl. tauto.
        - apply incl_refl.
        - destruct P15 as [later P15]. rewrite P4 in P15. rewrite map_app, P15, <- app_assoc. eauto.
        - apply Forall_app. split; auto. eapply Forall_impl; [|exact B1]. simpl. tauto.
        - rewrite <- W5. exact W6. }
      assert (LEN : length (w_results w) <= length H1) by (rewrite <- P4; now apply res_le).
      unfold hydrate_slice. rewrite T1.
      assert (SID : forall st, st = tr_state t -> set_state t st = t) by (intros st ->; destruct t; reflexivity).
      destruct (is_nil (b_work b)) eqn:EB.
      * (* no tests: the sources are at their end *)
        simpl in SK. apply negb_false_iff in SK. rewrite SK.
        assert (EOW : b_eow b = true) by (unfold s' in SK; destruct (b_eow b); auto; discriminate).
        apply is_nil_true in SK. rewrite EOW. simpl. apply is_nil_true in EB. rewrite EB in *. simpl in *. clear T1.
        rewrite app_nil_r in *. unfold last_id in T6. simpl in T6. rewrite T6. destruct (tr_state (trk w)) as [|l p|l p] eqn:ST; [| |destruct NH].
        -- (* an empty manifest *)
           simpl. eexists _, (Tests {| b_work := []; b_eow := true |}). split; [reflexivity|]. split.
           ++ apply says_end; [rewrite SE, SK; reflexivity|]. right. destruct P20 as [P20 _]. rewrite P20 in *. subst H1. simpl in LEN |- *. split; [lia|tauto].
           ++ exists H1, [], [], H1. split; auto. destruct P20 as [P20 _].
              eapply (BUILD NotStarted true); try reflexivity; auto; [split; auto; congruence|].
              unfold after. rewrite handed_snoc. simpl. rewrite app_nil_r. exact P4.
        -- (* the end of the manifest *)
           simpl. set (f1 := {| f_sources := s'; f_retry := set_state t (Hydrated l p) |}).
           assert (I' : Inv ss0 max (with_fetcher w f1) H1 [] [] H1).
           { destruct P20 as (_ & P20). rewrite P4 in P20.
             eapply (BUILD (Hydrated l p) false); try reflexivity; auto. intros; contradiction. }
           destruct (IH (with_fetcher w f1) H1 [] [] H1 I' NE LS) as (f' & r & E1 & E2 & E3).
           exists f', r. split; auto. split; auto. 
           assert (E2' := E2). destruct E2'; cbn [with_fetcher w_fetcher w_results f_sources f_retry f1 tr_current set_state] in *;
             rewrite ?T5 in *; change (handed (with_fetcher w f1)) with (handed w) in *.
           ++ eapply says_source; eauto; rewrite SE; eauto.
           ++ apply says_end; auto; rewrite SE; auto.
           ++ apply says_retry; auto; rewrite SE; auto.
           ++ apply says_error; auto.
           ++ apply says_waits_source; auto.
           ++ apply says_waits_report; auto; rewrite SE; auto.
      * assert (BN : b_work b <> []) by (intros Q; rewrite Q in EB; discriminate).
        destruct (exists_last BN) as (init & lt & EBW).
        assert (LST : forall d, last_id (b_work b) d = WaitingForEndOfHydration (id_of lt) false) by (intros d; rewrite EBW; apply last_id_snoc).
        rewrite LST in T6.
        assert (LX : exists C' t0, H1 ++ b_work b = C' ++ [t0] /\ id_of t0 = id_of lt /\ (false = true <-> length (w_results w) = length (H1 ++ b_work b))).
        { exists (H1 ++ init), lt. rewrite EBW, app_assoc. repeat split; auto; [discriminate|]. rewrite !app_length. simpl. lia. }
        set (b' := {| b_work := b_work b; b_eow := false |}).
        assert (HH : forall f, handed (after w f (Tests b')) = H1 ++ b_work b) by (intros f; unfold after; rewrite handed_snoc; simpl; rewrite <- P4; reflexivity).
        assert (SAY : fetch_says w H1 max (Tests b')) by (eapply says_source; simpl; eauto).
        destruct (b_eow b && is_nil s') eqn:EE.
        -- apply andb_true_iff in EE as [EE1 EE2]. apply is_nil_true in EE2. rewrite T6. simpl.
           eexists _, (Tests b'). split; [reflexivity|]. split; auto. exists (H1 ++ b_work b), [], [], (H1 ++ b_work b). split; auto.
           eapply (BUILD (Hydrated (id_of lt) false) false); try reflexivity; auto; [intros; contradiction|apply AM; auto].
        -- eexists _, (Tests b'). split; [reflexivity|]. split; auto. exists (H1 ++ b_work b), [], [], (H1 ++ b_work b). split; auto.
           assert (NN : s' <> []).
           { intros Q. rewrite Q in EE. simpl in EE. rewrite andb_true_r in EE. unfold s' in Q. rewrite EE in Q. discriminate. }
           eapply (BUILD (WaitingForEndOfHydration (id_of lt) false) false); try reflexivity; auto; [|apply AM; auto].
           simpl. now rewrite SID.
  - exists {| f_sources := script :: rest; f_retry := trk w |}, FetchError. split; auto. split.
    + apply says_error. rewrite ES. intros K. inversion K. simpl in *. discriminate.
    + exists H1, H2, O, C. split; auto.
      destruct I as [P1 P2 P3 P4 P5 P6 P6' P7 P8 P9 P10 P11 P12 P13 P14 P15 P16 P17 P18 P19 P20 P21].
      constructor; cbn [after w_panicked w_fetcher w_answers w_results w_ended f_retry f_sources]; auto.
      * destruct P6 as (X & X1 & X2 & X3). exists X. split; auto. split; [discriminate|discriminate].
      * discriminate.
      * rewrite ES in P9. intros _. apply P9. discriminate.
      * change (handed (after w {| f_sources := script :: rest; f_retry := trk w |} FetchError)) with (handed w).
        destruct (tr_state (trk w)); [split; [apply P20|discriminate]|destruct P20; split; auto; discriminate|].
        destruct P20 as [K _]. rewrite K in ES. discriminate.
      * split; [discriminate|]. destruct P21 as (_ & bs & tl & Q1 & Q2 & Q3). exists bs, tl. split; auto. split; auto.
        destruct Q3 as [Q3|[Q3 _]]; [auto|congruence].
Qed.

(* ---- histories ---- *)

Lemma account_cons t r rs : account_results t (r :: rs) = match account_results t [r] with Some t' => account_results t' rs | None => None end.
Proof. simpl. destruct (account_one _ _ _ _); auto. destruct (note_accounted_result _ _); auto. Qed.

Lemma account_all_inv ss0 max : proper ss0 -> forall rs w H1 H2 O C rest, Inv ss0 max w H1 H2 O C ->
  map key (handed w) = map rkey (w_results w ++ rs) ++ rest ->
  exists t, account_results (trk w) rs = Some t /\
    Inv ss0 max {| w_fetcher := {| f_sources := srcs w; f_retry := t |}; w_answers := w_answers w;
                   w_results := w_results w ++ rs; w_ended := w_ended w; w_panicked := false |} H1 H2 O C.
Proof.
  intros PR. induction rs as [|r rs IH]; intros w H1 H2 O C rest I E.
  - exists (trk w). split; auto. rewrite app_nil_r. pose proof (i_panic _ _ _ _ _ _ _ I) as P. destruct w as [[] ? ? ? ?]. simpl in *. subst. exact I.
  - assert (E1 : map key (handed w) = map rkey (w_results w ++ [r]) ++ (map rkey rs ++ rest)).
    { rewrite E, !map_app, <- !app_assoc. reflexivity. }
    destruct (account_inv ss0 max w H1 H2 O C r _ PR I E1) as (t & T1 & I1).
    destruct (IH (accounted w t r) H1 H2 O C rest I1) as (t' & T2 & I2).
    { change (handed (accounted w t r)) with (handed w). simpl. rewrite <- app_assoc. exact E. }
    exists t'. rewrite account_cons, T1. split; auto. simpl in I2. rewrite <- app_assoc in I2. exact I2.
Qed.

Lemma fetch_inv ss0 max w H1 H2 O C : proper ss0 -> Inv ss0 max w H1 H2 O C -> w_ended w = false ->
  exists f' r, fstep w Fetch = after w f' r /\ fetch_says w H1 max r /\ exists H1' H2' O' C', Inv ss0 max (fstep w Fetch) H1' H2' O' C'.
Proof.
  intros PR I NE. destruct (fetch_loop_inv ss0 max PR (S (S (length (concat (srcs w))))) w H1 H2 O C I NE ltac:(lia)) as (f' & r & E1 & E2 & H1' & H2' & O' & C' & E3 & _).
  exists f', r. pose proof (i_panic _ _ _ _ _ _ _ I) as P.
  assert (EQ : fstep w Fetch = after w f' r).
  { unfold fstep. rewrite P, NE. unfold fetch_next_tests. rewrite E1. destruct E2; reflexivity. }
  rewrite EQ. split; auto. split; auto. eauto.
Qed.

Lemma step_inv ss0 max w e H1 H2 O C : proper ss0 -> Inv ss0 max w H1 H2 O C -> reports_in_order w e ->
  exists H1' H2' O' C', Inv ss0 max (fstep w e) H1' H2' O' C'.
Proof.
  intros PR I RO. destruct e as [|rs].
  - destruct (w_ended w) eqn:NE.
    + exists H1, H2, O, C. unfold fstep. rewrite (i_panic _ _ _ _ _ _ _ I), NE. exact I.
    + destruct (fetch_inv ss0 max w H1 H2 O C PR I NE) as (_ & _ & _ & _ & R). exact R.
  - destruct RO as [rest E]. destruct (account_all_inv ss0 max PR rs w H1 H2 O C rest I E) as (t & T & I').
    exists H1, H2, O, C. unfold fstep. rewrite (i_panic _ _ _ _ _ _ _ I), T. exact I'.
Qed.

Lemma in_order_snoc w es e : in_order w (es ++ [e]) <-> in_order w es /\ reports_in_order (run fstep w es) e.
Proof.
  revert w. induction es as [|x es IH]; intros w; simpl; [tauto|]. rewrite IH. simpl. tauto.
Qed.

Lemma reach_inv ss0 max es : proper ss0 -> 1 <= max -> in_order (start ss0 max) es ->
  exists H1 H2 O C, Inv ss0 max (run fstep (start ss0 max) es) H1 H2 O C.
Proof.
  intros PR M. induction es as [|e es IH] using rev_ind; intros IO.
  - exists [], [], [], []. now apply inv_start.
  - apply in_order_snoc in IO as [IO RO]. destruct (IH IO) as (H1 & H2 & O & C & I). rewrite run_app. simpl.
    eapply step_inv; eauto.
Qed.

Lemma filter_all_true {A} (f : A -> bool) l : (forall x, In x l -> f x = true) -> filter f l = l.
Proof. induction l as [|a l IH]; simpl; intros H; auto. rewrite H, IH; auto. Qed.
Lemma filter_all_false {A} (f : A -> bool) l : (forall x, In x l -> f x = false) -> filter f l = [].
Proof. induction l as [|a l IH]; simpl; intros H; auto. rewrite H, IH; auto. Qed.

Lemma first_attempts_eq ss0 max w H1 H2 O C : Inv ss0 max w H1 H2 O C -> first_attempts w = H1.
Proof.
  intros I. unfold first_attempts. rewrite (i_split _ _ _ _ _ _ _ I), filter_app.
  rewrite (filter_all_true _ H1), (filter_all_false _ H2), app_nil_r; auto.
  - pose proof (i_later _ _ _ _ _ _ _ I) as F. rewrite Forall_forall in F. intros x Hx. specialize (F x Hx). apply Nat.eqb_neq. lia.
  - pose proof (i_first _ _ _ _ _ _ _ I) as F. rewrite Forall_forall in F. intros x Hx. apply Nat.eqb_eq. auto.
Qed.

Lemma attempt_eq ss0 max w H1 H2 O C : Inv ss0 max w H1 H2 O C -> handed w <> [] -> attempt w = tr_current (trk w).
Proof.
  intros I NE. unfold attempt. pose proof (i_state _ _ _ _ _ _ _ I) as ST. pose proof (i_c _ _ _ _ _ _ _ I) as FC.
  assert (exists C' t, C = C' ++ [t]) as (C' & t & ->).
  { destruct (tr_state (trk w)); [tauto| |]; destruct ST as (_ & C' & t & E & _); eauto. }
  rewrite (i_old _ _ _ _ _ _ _ I), app_assoc, rev_unit. apply Forall_app in FC as [_ FC]. now inversion FC.
Qed.

Lemma fetch_ended v : w_panicked v = false -> w_ended v = true -> fstep v Fetch = v.
Proof. intros P E. unfold fstep. now rewrite P, E. Qed.

Section History.
Variables (ss0 : list (list reply)) (max : nat).
Hypothesis PR : proper ss0.
Hypothesis MX : 1 <= max.
Variable es : list event.
Hypothesis IO : in_order (start ss0 max) es.
Notation w := (run fstep (start ss0 max) es).

Lemma hist_no_panic : w_panicked w = false.
Proof. destruct (reach_inv ss0 max es PR MX IO) as (H1 & H2 & O & C & I). exact (i_panic _ _ _ _ _ _ _ I). Qed.

Lemma hist_order : exists rest retries, source_tests ss0 = first_attempts w ++ rest /\ handed w = first_attempts w ++ retries /\
  Forall (fun t => 1 < wt_run t) retries /\ (retries <> [] -> rest = []).
Proof.
  destruct (reach_inv ss0 max es PR MX IO) as (H1 & H2 & O & C & I). rewrite (first_attempts_eq _ _ _ _ _ _ _ I).
  destruct (i_src _ _ _ _ _ _ _ I) as (X & X1 & X2 & X3). exists X, H2. split; auto. split; [exact (i_split _ _ _ _ _ _ _ I)|].
  split; [exact (i_later _ _ _ _ _ _ _ I)|]. intros K. apply X3.
  destruct (f_sources (w_fetcher w)) eqn:E; auto. exfalso. apply K.
  destruct (i_waits _ _ _ _ _ _ _ I) as [C1 _]; [rewrite E; discriminate|]. exact (proj1 (i_att1 _ _ _ _ _ _ _ I C1)).
Qed.

Lemma hist_answers : exists bs tl, w_answers w = bs ++ tl /\ Forall (fun b => b_eow b = false /\ b_work b <> []) bs /\
  (tl = [] \/ w_ended w = true /\ tl = [{| b_work := []; b_eow := true |}]).
Proof. destruct (reach_inv ss0 max es PR MX IO) as (H1 & H2 & O & C & I). exact (proj2 (i_ans _ _ _ _ _ _ _ I)). Qed.

Lemma hist_not_ended : w_ended w = false -> Forall (fun b => b_eow b = false) (w_answers w).
Proof. destruct (reach_inv ss0 max es PR MX IO) as (H1 & H2 & O & C & I). exact (proj1 (i_ans _ _ _ _ _ _ _ I)). Qed.

Lemma hist_runs : Forall (fun t => 1 <= wt_run t <= max) (handed w) /\ NoDup (map key (handed w)) /\
  incl (map id_of (handed w)) (map id_of (source_tests ss0)).
Proof.
  destruct (reach_inv ss0 max es PR MX IO) as (H1 & H2 & O & C & I). pose proof (i_cur _ _ _ _ _ _ _ I) as B. split; [|split].
  - rewrite (i_old _ _ _ _ _ _ _ I). apply Forall_app. split.
    + eapply Forall_impl; [|exact (i_o _ _ _ _ _ _ _ I)]. simpl. intros; lia.
    + eapply Forall_impl; [|exact (i_c _ _ _ _ _ _ _ I)]. simpl. intros; lia.
  - exact (i_nd _ _ _ _ _ _ _ I).
  - destruct (i_src _ _ _ _ _ _ _ I) as (X & X1 & _). rewrite X1, map_app. apply incl_appl. exact (i_ids _ _ _ _ _ _ _ I).
Qed.

Lemma hist_bound : length (handed w) <= length (source_tests ss0) * max.
Proof.
  destruct hist_runs as (R & ND & IN). rewrite <- (map_length key (handed w)).
  assert (L : length (list_prod (map id_of (source_tests ss0)) (seq 1 max)) = length (source_tests ss0) * max)
    by (rewrite prod_length, map_length, seq_length; reflexivity).
  rewrite <- L.
  apply NoDup_incl_length; auto. intros [i k] K. apply in_map_iff in K as (t & E & K). apply in_prod.
  - apply IN. injection E as <- <-. now apply in_map.
  - rewrite Forall_forall in R. specialize (R t K). injection E as <- <-. apply in_seq. lia.
Qed.

Lemma hist_answer_bound : length (w_answers w) <= length (source_tests ss0) * max + 1.
Proof.
  pose proof hist_bound as B. destruct hist_answers as (bs & tl & E & F & T).
  unfold handed in B. rewrite E in *. rewrite app_length. rewrite flat_map_app, app_length in B.
  assert (length bs <= length (flat_map b_work bs)).
  { clear -F. induction F as [|b bs [_ N] _ IH]; simpl; auto. rewrite app_length. destruct (b_work b); [congruence|]. simpl. lia. }
  assert (length tl <= 1) by (destruct T as [->|[_ ->]]; simpl; lia). lia.
Qed.

(* what one more call says *)
Lemma hist_fetch : w_ended w = false ->
  exists f' r, fstep w Fetch = after w f' r /\ fetch_says w (first_attempts w) max r.
Proof.
  intros NE. destruct (reach_inv ss0 max es PR MX IO) as (H1 & H2 & O & C & I).
  destruct (fetch_inv _ _ _ _ _ _ _ PR I NE) as (f' & r & E1 & E2 & _). exists f', r. rewrite (first_attempts_eq _ _ _ _ _ _ _ I). auto.
Qed.

Lemma hist_src_end : w_ended w = false -> source_tests (f_sources (w_fetcher w)) = [] -> first_attempts w = source_tests ss0.
Proof.
  intros NE SN. destruct (reach_inv ss0 max es PR MX IO) as (H1 & H2 & O & C & I). rewrite (first_attempts_eq _ _ _ _ _ _ _ I).
  destruct (i_src _ _ _ _ _ _ _ I) as (X & X1 & X2 & X3). rewrite X1, X2, SN, app_nil_r; auto.
Qed.

Lemma hist_new_answer b : w_answers (fstep w Fetch) = w_answers w ++ [b] ->
  w_ended w = false /\ fetch_says w (first_attempts w) max (Tests b).
Proof.
  intros E. assert (NN : forall (l : list bundle) x, l <> l ++ [x]).
  { intros l x K. apply (f_equal (@length bundle)) in K. rewrite app_length in K. simpl in K. lia. }
  destruct (w_ended w) eqn:NE.
  - exfalso. rewrite (fetch_ended _ hist_no_panic NE) in E. exact (NN _ _ E).
  - split; auto. destruct (hist_fetch NE) as (f' & r & E1 & E2). rewrite E1 in E. destruct r; simpl in E; try (exfalso; exact (NN _ _ E)).
    apply app_inv_head in E. injection E as ->. exact E2.
Qed.

Lemma hist_retry b t : w_answers (fstep w Fetch) = w_answers w ++ [b] -> In t (b_work b) -> wt_run t <> 1 ->
  attempt w < max /\ first_attempts w = source_tests ss0 /\ length (w_results w) = length (handed w) /\
  Forall (fun t => wt_run t = attempt w + 1) (b_work b) /\
  map id_of (b_work b) = filter (fun id => fails_through (w_results w) id (attempt w)) (map id_of (source_tests ss0)) /\
  Forall (fun t => exists foc, sp_focus (wt_spec t) = Some foc /\
    (forall r x xs, In r (w_results w) -> ar_work r = id_of t -> failing_cases r = x :: xs -> In x foc) /\
    (forall x, In x foc -> exists r, In r (w_results w) /\ ar_work r = id_of t /\ In x (failing_cases r))) (b_work b).
Proof.
  intros E It Rt. destruct (hist_new_answer b E) as [NE S].
  destruct (reach_inv ss0 max es PR MX IO) as (H1 & H2 & O & C & I).
  inversion S as [b0 Y B1 B2 B3 B4 | S1 S2 | b0 R1 R2 R3 R4 R5 R6 R7 R8 R9 R10 | | | ]; subst.
  - exfalso. apply Rt. destruct PR as (_ & _ & F). rewrite Forall_forall in F. apply F.
    destruct (i_src _ _ _ _ _ _ _ I) as (X & X1 & X2 & _). rewrite X1, X2, B3; auto. apply in_or_app. right. apply in_or_app. auto.
  - destruct It.
  - rewrite (attempt_eq _ _ _ _ _ _ _ I R6). rewrite (hist_src_end NE R1) in R8. repeat split; auto.
    + apply hist_src_end; auto.
    + clear -R9 R10. rewrite Forall_forall in *. intros x Hx. destruct (R10 x Hx) as (foc & F1 & F2). exists foc. split; auto. split; auto.
      intros r y ys K1 K2 K3. specialize (R9 x Hx r y ys K1 K2 K3). unfold focus_of in R9. rewrite F1 in R9. exact R9.
Qed.

Lemma hist_end b : w_answers (fstep w Fetch) = w_answers w ++ [b] -> b_eow b = true ->
  b_work b = [] /\ first_attempts w = source_tests ss0 /\
  (attempt w = max \/ length (w_results w) = length (handed w) /\ forall id, In id (map id_of (source_tests ss0)) -> fails_through (w_results w) id (attempt w) = false).
Proof.
  intros E B. destruct (hist_new_answer b E) as [NE S].
  destruct (reach_inv ss0 max es PR MX IO) as (H1 & H2 & O & C & I).
  inversion S; subst; try congruence. split; auto. assert (FA : first_attempts w = source_tests ss0) by (now apply hist_src_end). split; auto.
  destruct (handed w) as [|h hs] eqn:HW.
  - right. rewrite <- FA. unfold first_attempts. rewrite HW. simpl. split; [|tauto].
    destruct (i_res _ _ _ _ _ _ _ I) as [l L]. rewrite HW in L. simpl in L. destruct (w_results w); [reflexivity|discriminate].
  - rewrite <- HW in *. rewrite (attempt_eq _ _ _ _ _ _ _ I) by (rewrite HW; discriminate). rewrite FA in *. assumption.
Qed.

Lemma hist_progress : complete ss0 -> w_ended w = false -> length (w_results w) = length (handed w) ->
  exists b, w_answers (fstep w Fetch) = w_answers w ++ [b].
Proof.
  intros CP NE L. destruct (hist_fetch NE) as (f' & r & E1 & E2). rewrite E1.
  destruct (reach_inv ss0 max es PR MX IO) as (H1 & H2 & O & C & I). pose proof (i_cmp _ _ _ _ _ _ _ I CP NE) as CP'.
  destruct E2; simpl; eauto; try contradiction. lia.
Qed.

(* with one attempt only, the end of work needs no reports *)
Lemma hist_progress_last : complete ss0 -> w_ended w = false -> attempt w = max -> handed w <> [] ->
  exists b, w_answers (fstep w Fetch) = w_answers w ++ [b].
Proof.
  intros CP NE L HN. destruct (hist_fetch NE) as (f' & r & E1 & E2). rewrite E1.
  destruct (reach_inv ss0 max es PR MX IO) as (H1 & H2 & O & C & I). pose proof (i_cmp _ _ _ _ _ _ _ I CP NE) as CP'.
  rewrite (attempt_eq _ _ _ _ _ _ _ I HN) in L.
  destruct E2; simpl; eauto; try contradiction. lia.
Qed.

End History.

(* once the end of work was given, all the sources' tests have been *)
Lemma hist_all_given ss0 max es b : proper ss0 -> 1 <= max -> in_order (start ss0 max) es ->
  In b (w_answers (run fstep (start ss0 max) es)) -> b_eow b = true ->
  first_attempts (run fstep (start ss0 max) es) = source_tests ss0.
Proof.
  intros PR MX. induction es as [|e es IH] using rev_ind; intros IO; [intros []|].
  apply in_order_snoc in IO as [IO RO]. rewrite run_app. change (run fstep (run fstep (start ss0 max) es) [e]) with (fstep (run fstep (start ss0 max) es) e).
  specialize (IH IO). pose proof (fun b => hist_end ss0 max PR MX es IO b) as HE. pose proof (hist_no_panic ss0 max PR MX es IO) as NP.
  pose proof (hist_not_ended ss0 max PR MX es IO) as HN.
  set (w := run fstep (start ss0 max) es) in *. clearbody w. destruct e as [|rs].
  - destruct (w_ended w) eqn:NE.
    + unfold fstep. rewrite NP, NE. auto.
    + intros Ib Eb. unfold fstep in *. rewrite NP, NE in *.
      destruct (fetch_next_tests (w_fetcher w)) as [f' [b0| | | |]]; simpl in Ib; try (apply IH; assumption).
      assert (HS : forall x, first_attempts {| w_fetcher := f'; w_answers := w_answers w ++ [x]; w_results := w_results w; w_ended := b_eow x; w_panicked := false |} =
                   first_attempts w ++ filter (fun t => Nat.eqb (wt_run t) 1) (b_work x)).
      { intros x. unfold first_attempts. rewrite handed_snoc, filter_app. reflexivity. }
      simpl in HE. rewrite HS. apply in_app_or in Ib as [Ib|[->|[]]].
      * specialize (HN eq_refl). rewrite Forall_forall in HN. rewrite (HN b Ib) in Eb. discriminate.
      * destruct (HE b eq_refl Eb) as (W0 & FA & _). rewrite W0, app_nil_r. exact FA.
  - unfold fstep. rewrite NP. destruct (account_results _ _); simpl; auto.
Qed.
