(* The requests in flight, the job queues they use and the answers in the log. *)
From Verif Require Import Base JobQueueModel WorkerSetModel RunModel RunSpec RunProofs.
From Verif Require JobQueueSpec JobQueueProofs JobQueueLemmas.

Section Inv.
Context {T M : Type}.
Implicit Types (st : state T M) (r : run_id) (s : run_state T M).

Definition qa st r : option (queue (T := T)) :=
  match get r (s_runs st) with Some s => queue_of s | None => None end.

(* The run has work: its queue and batch size. *)
Definition open st r : option (queue (T := T) * nat) :=
  match get r (s_runs st) with Some (HasWork q _ b _ _) => Some (q, b) | _ => None end.

Definition is_qnext (q : request T) : bool := match q with QNext _ _ _ => true | _ => false end.
Definition is_owork (o : obs T M) : bool := match o with OWork _ _ _ _ _ _ => true | _ => false end.

Record quiet st st' : Prop := {
  qt_qa : forall r, qa st' r = qa st r;
  qt_open : forall r, open st' r = open st r \/ (busy st r = false /\ open st' r = None);
  qt_reqs : forall k q, is_qnext q = true -> (nth_error (s_reqs st') k = Some q <-> nth_error (s_reqs st) k = Some q);
  qt_len : length (s_reqs st) <= length (s_reqs st');
  qt_log : exists os, s_log st' = s_log st ++ os /\ filter is_owork os = []
}.

Inductive gstep st st' : Prop :=
| GQuiet : quiet st st' -> gstep st st'
| GOpen r c b : busy st r = false -> qa st r = None -> (forall r', qa st' r' = if Nat.eqb r r' then Some (c, init c) else qa st r') ->
    cf_queue c <> [] ->
    (forall r', open st' r' = if Nat.eqb r r' then Some ((c, init c), b) else open st r') ->
    s_reqs st' = s_reqs st -> (exists os, s_log st' = s_log st ++ os /\ filter is_owork os = []) -> gstep st st'
| GAsk r e c js b : open st r = Some ((c, js), b) ->
    (forall r', qa st' r' = if Nat.eqb r r' then Some (c, JobQueueModel.step c js (Arrive (en_tag e) b)) else qa st r') ->
    (forall r', open st' r' = if Nat.eqb r r' then Some ((c, JobQueueModel.step c js (Arrive (en_tag e) b)), b) else open st r') ->
    s_reqs st' = s_reqs st ++ [QNext r e (NPull (length (st_threads js)))] ->
    (exists os, s_log st' = s_log st ++ os /\ filter is_owork os = []) -> gstep st st'
| GAskClosed r e : (forall r', qa st' r' = qa st r') -> (forall r', open st' r' = open st r') ->
    s_reqs st' = s_reqs st ++ [QNext r e (NAnswered None)] ->
    s_log st' = s_log st ++ [OAsk (length (s_reqs st)) r e; OWork (length (s_reqs st)) r e [] true None] -> gstep st st'
| GQueue k r e j c js b : nth_error (s_reqs st) k = Some (QNext r e (NPull j)) -> open st r = Some ((c, js), b) ->
    (forall r', qa st' r' = if Nat.eqb r r' then Some (c, JobQueueModel.step c js (Step j)) else qa st r') ->
    (forall r', open st' r' = if Nat.eqb r r' then Some ((c, JobQueueModel.step c js (Step j)), b) else open st r') ->
    s_reqs st' = s_reqs st -> (exists os, s_log st' = s_log st ++ os /\ filter is_owork os = []) -> gstep st st'
| GMore k r e j c js b t : nth_error (s_reqs st) k = Some (QNext r e (NPull j)) -> open st r = Some ((c, js), b) ->
    nth_error (st_threads js) j = Some t -> eow_of c t = Some false ->
    (forall r', qa st' r' = qa st r') -> (forall r', open st' r' = open st r') ->
    s_reqs st' = upd k (QNext r e (NAnswered (Some j))) (s_reqs st) ->
    s_log st' = s_log st ++ [OWork k r e (bundle c t) false None] -> gstep st st'
| GLast k r e j c js b t : nth_error (s_reqs st) k = Some (QNext r e (NPull j)) -> open st r = Some ((c, js), b) ->
    nth_error (st_threads js) j = Some t -> eow_of c t = Some true ->
    (forall r', qa st' r' = qa st r') -> (forall r', open st' r' = open st r') ->
    s_reqs st' = upd k (QNext r e (NEnd j (bundle c t))) (s_reqs st) ->
    s_log st' = s_log st -> gstep st st'
| GEnd k r e j ts p : nth_error (s_reqs st) k = Some (QNext r e (NEnd j ts)) -> busy st r = false ->
    (forall r', qa st' r' = qa st r') -> (forall r', r' <> r -> open st' r' = open st r') -> open st' r = None ->
    s_reqs st' = upd k (QNext r e (NAnswered (Some j))) (s_reqs st) ->
    s_log st' = s_log st ++ [OWork k r e ts true p] -> gstep st st'.

Lemma nth_snoc_not {A} (l : list A) x k y : x <> y -> nth_error (l ++ [x]) k = Some y <-> nth_error l k = Some y.
Proof.
  intros Hne. split; intros H.
  - destruct (Nat.lt_ge_cases k (length l)).
    + now rewrite nth_error_app1 in H.
    + rewrite nth_error_app2 in H by auto. destruct (k - length l) as [|n]; simpl in H; [congruence|].
      destruct n; discriminate.
  - rewrite nth_error_app1; auto. apply nth_error_Some. congruence.
Qed.

Lemma nth_upd_not {A} (l : list A) k' x k y z : nth_error l k' = Some z -> z <> y -> x <> y ->
  nth_error (upd k' x l) k = Some y <-> nth_error l k = Some y.
Proof.
  intros Hz Hzy Hxy. destruct (Nat.eq_dec k' k) as [<-|Hne].
  - rewrite nth_error_upd_eq by (apply nth_error_Some; congruence). split; congruence.
  - now rewrite nth_error_upd_neq.
Qed.

Lemma step_gstep st ev :
  (forall k p, nth_error (s_reqs st) k = Some (QFind p FLookup) -> get (fp_run p) (s_runs st) <> None) ->
  (forall k r e j ts, nth_error (s_reqs st) k = Some (QNext r e (NEnd j ts)) -> get r (s_runs st) <> None) ->
  gstep st (step st ev).
Proof.
  intros HF HE.
  assert (Q0 : forall st', s_runs st' = s_runs st -> 
     (forall k q, is_qnext q = true -> (nth_error (s_reqs st') k = Some q <-> nth_error (s_reqs st) k = Some q)) ->
     length (s_reqs st) <= length (s_reqs st') ->
     (exists os, s_log st' = s_log st ++ os /\ filter is_owork os = []) -> gstep st st').
  { intros st' H1 H2 H3 H4. apply GQuiet. constructor; auto; unfold qa, open; intros; rewrite H1; auto. }
  assert (Q1 : forall st' r s s', s_runs st' = put r s' (s_runs st) -> get r (s_runs st) = Some s ->
     queue_of s' = queue_of s -> 
     (match s with HasWork q _ b _ _ => 
          match s' with HasWork q' _ b' _ _ => b' = b | _ => busy st r = false end
        | _ => match s' with HasWork _ _ _ _ _ => False | _ => True end end) ->
     (forall k q, is_qnext q = true -> (nth_error (s_reqs st') k = Some q <-> nth_error (s_reqs st) k = Some q)) ->
     length (s_reqs st) <= length (s_reqs st') ->
     (exists os, s_log st' = s_log st ++ os /\ filter is_owork os = []) -> gstep st st').
  { intros st' r s s' H1 Hg Hq Ho H2 H3 H4. apply GQuiet. constructor; auto; unfold qa, open; intros r'; rewrite H1, get_put.
    - destruct (Nat.eqb_spec r r'); subst; [rewrite Hg|]; auto.
    - destruct (Nat.eqb_spec r r'); subst; [rewrite Hg|]; auto.
      destruct s, s'; simpl in *; auto; try tauto. left. congruence. }
  Ltac nolog := eexists; split; [reflexivity|reflexivity].
  Ltac nolog0 := exists []; split; [symmetry; apply app_nil_r|reflexivity].
  unfold step; destruct ev; unfold exclusive.
  - (* EFind *) destruct (Nat.eqb (fp_batch p) 0).
    + apply Q0; auto; [tauto|nolog0].
    + apply Q0; auto; simpl; [|rewrite app_length; simpl; lia|nolog0].
      intros k q Hq. apply nth_snoc_not. intros <-; discriminate.
  - destruct (nth_error (s_reqs st) k) as [[p [] |? ? ?|? ? ?]|] eqn:Eq; try (apply Q0; auto; [tauto|nolog0]).
    assert (HU : forall pc k' q, is_qnext q = true ->
      (nth_error (upd k (QFind p pc) (s_reqs st)) k' = Some q <-> nth_error (s_reqs st) k' = Some q)).
    { intros pc k' q Hq. eapply nth_upd_not; eauto; intros <-; discriminate. }
    assert (QN : forall st' s', s_runs st' = put (fp_run p) s' (s_runs st) -> get (fp_run p) (s_runs st) = None ->
       queue_of s' = None -> match s' with HasWork _ _ _ _ _ => False | _ => True end ->
       (exists pc, s_reqs st' = upd k (QFind p pc) (s_reqs st)) ->
       (exists os, s_log st' = s_log st ++ os /\ filter is_owork os = []) -> gstep st st').
    { intros st' s' H1 Hg Hq Ho [pc H2] H4. apply GQuiet. constructor; auto; unfold qa, open; try intros r'; rewrite ?H1, ?get_put.
      - destruct (Nat.eqb_spec (fp_run p) r'); subst; [rewrite Hg|]; auto.
      - destruct (Nat.eqb_spec (fp_run p) r'); subst; [rewrite Hg|]; auto. left. destruct s'; tauto.
      - rewrite H2. apply HU.
      - rewrite H2, upd_length. auto. }
    destruct a as [sv| | |].
    + destruct (get (fp_run p) (s_runs st)) eqn:Eg.
      * apply Q0; simpl; auto; [rewrite upd_length; auto|nolog0].
      * eapply (QN _ (loaded_run sv)); simpl; auto; [eauto|nolog].
    + destruct (get (fp_run p) (s_runs st)) eqn:Eg.
      * apply Q0; simpl; auto; [rewrite upd_length; auto|nolog0].
      * eapply (QN _ (fresh_run now p)); simpl; auto; [eauto|nolog].
    + destruct (get (fp_run p) (s_runs st)) eqn:Eg.
      * apply Q0; simpl; auto; [rewrite upd_length; auto|nolog0].
      * eapply (QN _ (fresh_run now p)); simpl; auto; [eauto|nolog].
    + apply Q0; simpl; auto; [rewrite upd_length; auto|nolog].
  - destruct (nth_error (s_reqs st) k) as [[p [] |? ? ?|? ? ?]|] eqn:Eq; try (apply Q0; auto; [tauto|nolog0]).
    assert (HU : forall pc k' q, is_qnext q = true ->
      (nth_error (upd k (QFind p pc) (s_reqs st)) k' = Some q <-> nth_error (s_reqs st) k' = Some q)).
    { intros pc k' q Hq. eapply nth_upd_not; eauto; intros <-; discriminate. }
    destruct (get (fp_run p) (s_runs st)) as [s|] eqn:Eg; [|exfalso; eapply HF; eauto].
    destruct (find_lookup now p s) as [s' a] eqn:Ef.
    eapply (Q1 _ (fp_run p) s s'); simpl; auto; [| |rewrite upd_length; auto|nolog];
      destruct s; simpl in Ef; inversion Ef; subst; simpl; auto.
  - destruct (get r (s_runs st)) as [s|] eqn:Eg; [|apply Q0; simpl; auto; [tauto|nolog]].
    destruct (busy st r) eqn:Eb; [apply Q0; auto; [tauto|nolog0]|].
    destruct flat as [|x flat].
    + destruct (mark_empty s) as [[s' d] ok] eqn:Ef.
      eapply (Q1 _ r s s'); simpl; auto; [| |tauto|nolog];
        destruct s; simpl in Ef; inversion Ef; subst; simpl; auto.
    + destruct (add_manifest (x :: flat) meta s) as [s' ok] eqn:Ef.
      destruct s as [conns b sg h|q m b active h|ec m seen mp h old|rr old].
      2-4: simpl in Ef; inversion Ef; subst; eapply (Q1 _ r); [reflexivity|exact Eg|reflexivity|simpl; auto|tauto|simpl; auto|nolog].
      unfold add_manifest in Ef. injection Ef as <- <-.
      eapply (GOpen _ _ r _ b Eb); [| | | | |eexists; split; [reflexivity|reflexivity]].
      * unfold qa; rewrite Eg; auto.
      * intros r'. unfold qa; cbn [s_runs set_run mk]. rewrite get_put. destruct (Nat.eqb r r'); reflexivity.
      * simpl. discriminate.
      * intros r'. unfold open; cbn [s_runs set_run mk]. rewrite get_put. destruct (Nat.eqb r r'); reflexivity.
      * reflexivity.
  - destruct (get r (s_runs st)) as [s|] eqn:Eg; [|apply Q0; simpl; auto; [tauto|nolog]].
    destruct (busy st r) eqn:Eb; [apply Q0; auto; [tauto|nolog0]|].
    destruct (mark_failed s) as [s' d] eqn:Ef.
    eapply (Q1 _ r s s'); simpl; auto; [| |tauto|nolog];
        destruct s; simpl in Ef; inversion Ef; subst; simpl; auto.
  - destruct (get r (s_runs st)) as [s|] eqn:Eg; [|apply Q0; simpl; auto; [tauto|nolog]].
    destruct (init_metadata e s) as [s' a] eqn:Ef.
    eapply (Q1 _ r s s'); simpl; auto; [| |tauto|nolog];
        destruct s; simpl in Ef; try destruct (contains_by_tag seen e); inversion Ef; subst; simpl; auto.
  - (* ENext *)
    destruct (get r (s_runs st)) as [[conns b sg h|[c js] m b active h|ec m seen mp h old|rr old]|] eqn:Eg.
    + eapply GAskClosed; simpl; auto.
    + eapply (GAsk _ _ r e c js b); simpl; auto; [unfold open; now rewrite Eg| | |nolog];
        intros r'; unfold qa, open; simpl; rewrite get_put; destruct (Nat.eqb r r'); auto.
    + eapply GAskClosed; simpl; auto; intros r'; unfold qa, open; simpl; rewrite get_put;
        destruct (Nat.eqb_spec r r'); subst; rewrite ?Eg; auto.
    + eapply GAskClosed; simpl; auto.
    + apply Q0; simpl; auto; [tauto|nolog].
  - destruct (nth_error (s_reqs st) k) as [[|r0 e [j|j ts|j]|]|] eqn:Eq; try (apply Q0; auto; [tauto|nolog0]).
    destruct (get r0 (s_runs st)) as [[| [c js] m b active h| |]|] eqn:Eg; try (apply Q0; auto; [tauto|nolog0]).
    eapply (GQueue _ _ k r0 e j c js b); auto; simpl; auto; [unfold open; now rewrite Eg| | |nolog];
      intros r'; unfold qa, open; simpl; rewrite get_put; destruct (Nat.eqb r0 r'); auto.
  - destruct (nth_error (s_reqs st) k) as [[|r0 e [j|j ts|j]|]|] eqn:Eq; try (apply Q0; auto; [tauto|nolog0]).
    + destruct (get r0 (s_runs st)) as [[| [c js] m b active h| |]|] eqn:Eg; try (apply Q0; auto; [tauto|nolog0]).
      assert (Ho : open st r0 = Some ((c, js), b)) by (unfold open; now rewrite Eg).
      destruct (nth_error (st_threads js) j) as [t|] eqn:Et; [|apply Q0; auto; [tauto|nolog0]].
      destruct (status_of c t) as [[]|] eqn:Es; [| | |apply Q0; auto; [tauto|nolog0]].
      * eapply (GMore _ _ k r0 e j c js b t); auto. unfold eow_of; now rewrite Es.
      * eapply (GLast _ _ k r0 e j c js b t); auto. unfold eow_of; now rewrite Es.
      * eapply (GLast _ _ k r0 e j c js b t); auto. unfold eow_of; now rewrite Es.
    + destruct (get r0 (s_runs st)) as [s|] eqn:Eg; [|exfalso; eapply HE; eauto].
      destruct (busy st r0) eqn:Eb; [apply Q0; auto; [tauto|nolog0]|].
      destruct (try_mark_end s) as [[s' d] p] eqn:Ef.
      eapply (GEnd _ _ k r0 e j ts p); auto.
      * intros r'; unfold qa; simpl; rewrite get_put. destruct (Nat.eqb_spec r0 r'); auto; subst.
        rewrite Eg. destruct s; simpl in Ef; try destruct q; inversion Ef; subst; auto.
      * intros r' Hne; unfold open; simpl; rewrite get_put. destruct (Nat.eqb_spec r0 r'); auto; congruence.
      * unfold open; simpl; rewrite get_put, Nat.eqb_refl.
        destruct s; simpl in Ef; try destruct q; inversion Ef; subst; auto.
  - destruct (get r (s_runs st)) as [s|] eqn:Eg; [|apply Q0; simpl; auto; [tauto|nolog]].
    destruct (retry_manifest e s) as [s' a] eqn:Ef.
    eapply (Q1 _ r s s'); simpl; auto; [| |tauto|nolog];
        destruct s; simpl in Ef; try destruct q; try destruct mp as [[]|]; inversion Ef; subst; simpl; auto.
  - destruct (get r (s_runs st)) as [s|] eqn:Eg; [|apply Q0; simpl; auto; [tauto|nolog0]].
    eapply (Q1 _ r s _); simpl; auto; [| |tauto|nolog]; destruct s; simpl; auto.
  - destruct (get r (s_runs st)) as [s|] eqn:Eg; [|apply Q0; simpl; auto; [tauto|nolog]].
    destruct (busy st r) eqn:Eb; [apply Q0; auto; [tauto|nolog0]|].
    destruct (mark_cancelled e CRUser s) as [s' d] eqn:Ef.
    eapply (Q1 _ r s s'); simpl; auto; [| |tauto|nolog];
        destruct s; simpl in Ef; inversion Ef; subst; simpl; auto.
  - destruct (get r (s_runs st)) as [[| |ec m seen [b|] h old|]|] eqn:Eg; try (apply Q0; auto; [tauto|nolog0]).
    eapply (Q1 _ r); [reflexivity|exact Eg|reflexivity|simpl; auto|tauto|simpl; auto|nolog].
  - destruct (nth_error (s_timers st) i) as [[r last]|] eqn:Et; [|apply Q0; auto; [tauto|nolog0]].
    destruct (get r (s_runs st)) as [s|] eqn:Eg.
    + destruct (query_progress last s) eqn:Eqp; apply Q0; simpl; auto; try tauto;
        try (rewrite app_length; simpl; lia); try (intros k q Hq; apply nth_snoc_not; intros <-; discriminate);
        rewrite ?app_nil_r; try nolog; nolog0.
    + apply Q0; simpl; auto; [tauto|]. rewrite app_nil_r; nolog.
  - destruct (nth_error (s_reqs st) k) as [[| |r last []]|] eqn:Eq; try (apply Q0; auto; [tauto|nolog0]).
    assert (HU : forall b k' q, is_qnext q = true ->
      (nth_error (upd k (QTimeout r last b) (s_reqs st)) k' = Some q <-> nth_error (s_reqs st) k' = Some q)).
    { intros b k' q Hq. eapply nth_upd_not; eauto; intros <-; discriminate. }
    destruct (get r (s_runs st)) as [s|] eqn:Eg; [|apply Q0; simpl; auto; [tauto|nolog]].
    destruct (busy st r) eqn:Eb; [apply Q0; auto; [tauto|nolog0]|].
    destruct (is_cancel (query_progress last s)) eqn:Ec.
    + eapply (Q1 _ r); [reflexivity|exact Eg|reflexivity|destruct s; simpl; auto|exact (HU true)|simpl; rewrite upd_length; auto|nolog].
    + destruct (query_progress last s) eqn:Eqp; simpl in Ec; try discriminate;
        apply Q0; simpl; auto; try (rewrite upd_length; auto); nolog.
  - apply Q0; simpl; auto; [tauto|nolog].
  - apply Q0; simpl; auto; [tauto|nolog].
Qed.


(* ------------------------------------------------------------------ *)
(* Find requests and batch sizes.                                      *)

Lemma nth_snoc_inv {A} (l : list A) x k y :
  nth_error (l ++ [x]) k = Some y -> nth_error l k = Some y \/ (nth_error l k = None /\ k = length l /\ x = y).
Proof.
  rewrite nth_error_snoc. destruct (Nat.ltb_spec k (length l)); auto.
  destruct (Nat.eqb_spec k (length l)); [|discriminate].
  intros [= ->]. right. repeat split; auto. apply nth_error_None; auto.
Qed.

Lemma nth_upd_inv {A} (l : list A) i x k y :
  nth_error (upd i x l) k = Some y -> (k = i /\ x = y) \/ (k <> i /\ nth_error l k = Some y).
Proof.
  rewrite nth_error_upd. destruct (Nat.eqb_spec i k).
  - destruct (Nat.ltb i (length l)); [|discriminate]. intros [= ->]; auto.
  - auto.
Qed.

Lemma effect_some st r (o : option (run_state T M)) os : effect st r o os -> get r (s_runs st) <> None -> o <> None.
Proof. intros H Hn; inversion H; subst; try congruence; discriminate. Qed.

Lemma get_stays st ev r : get r (s_runs st) <> None -> get r (s_runs (step st ev)) <> None.
Proof. intros H. destruct (step_effect st ev r) as (os & He & _). eapply effect_some; eauto. Qed.

Definition finv st : Prop :=
  (forall k p, nth_error (s_reqs st) k = Some (QFind p FLookup) -> get (fp_run p) (s_runs st) <> None) /\
  (forall k p pc, nth_error (s_reqs st) k = Some (QFind p pc) -> 1 <= fp_batch p).

Lemma find_reqs st ev k p pc :
  nth_error (s_reqs (step st ev)) k = Some (QFind p pc) ->
  (pc = FLookup -> nth_error (s_reqs st) k = Some (QFind p FLookup) \/ get (fp_run p) (s_runs (step st ev)) <> None) /\
  (1 <= fp_batch p \/ exists pc', nth_error (s_reqs st) k = Some (QFind p pc')).
Proof.
  assert (Hsame : nth_error (s_reqs st) k = Some (QFind p pc) ->
    (pc = FLookup -> nth_error (s_reqs st) k = Some (QFind p FLookup) \/ get (fp_run p) (s_runs (step st ev)) <> None) /\
    (1 <= fp_batch p \/ exists pc', nth_error (s_reqs st) k = Some (QFind p pc'))).
  { intros H; split; [intros ->; auto|eauto]. }
  revert Hsame. unfold step; destruct ev; unfold exclusive; intros Hsame H.
  - destruct (Nat.eqb_spec (fp_batch p0) 0); [auto|]. simpl in H.
    apply nth_snoc_inv in H as [H|(Hn & -> & H)]; [auto|]. injection H as -> Hpc. split; [|left; lia].
    intros ->. simpl. destruct (get (fp_run p) (s_runs st)); [right; congruence|discriminate].
  - destruct (nth_error (s_reqs st) k0) as [[p0 [] |? ? ?|? ? ?]|] eqn:Eq; auto.
    destruct a as [sv| | |].
    + simpl in H. apply nth_upd_inv in H as [[-> H]|[Hne H]].
      * injection H as -> <-. split; [|eauto]. intros _. right. simpl.
        destruct (get (fp_run p) (s_runs st)) eqn:Eg; simpl; [congruence|]. rewrite get_put, Nat.eqb_refl. discriminate.
      * destruct (get (fp_run p0) (s_runs st)); simpl in *; split; try (intros ->; auto); eauto.
    + destruct (get (fp_run p0) (s_runs st)) eqn:Eg.
      all: simpl in H; apply nth_upd_inv in H as [[-> H]|[Hne H]];
        [injection H as -> <-; split; [|eauto]; intros; try discriminate; right; simpl; congruence
        |simpl; split; [intros ->; auto|eauto]].
    + destruct (get (fp_run p0) (s_runs st)) eqn:Eg.
      all: simpl in H; apply nth_upd_inv in H as [[-> H]|[Hne H]];
        [injection H as -> <-; split; [|eauto]; intros; try discriminate; right; simpl; congruence
        |simpl; split; [intros ->; auto|eauto]].
    + simpl in H; apply nth_upd_inv in H as [[-> H]|[Hne H]];
        [injection H as -> <-; split; [|eauto]; intros; try discriminate
        |simpl; split; [intros ->; auto|eauto]].
  - destruct (nth_error (s_reqs st) k0) as [[p0 [] |? ? ?|? ? ?]|] eqn:Eq; auto.
    destruct (get (fp_run p0) (s_runs st)) as [s|] eqn:Eg.
    + destruct (find_lookup now p0 s).
      simpl in H; apply nth_upd_inv in H as [[-> H]|[Hne H]];
        [injection H as -> <-; split; [|eauto]; intros; try discriminate
        |simpl; split; [intros ->; auto|eauto]].
    + simpl in H; apply nth_upd_inv in H as [[-> H]|[Hne H]];
        [injection H as -> <-; split; [|eauto]; intros; try discriminate
        |simpl; split; [intros ->; auto|eauto]].
  - destruct (get r (s_runs st)) as [s|]; [|auto]. destruct (busy st r); [auto|].
    destruct flat; [destruct (mark_empty s) as [[? ?] ?]|destruct (add_manifest _ _ _)]; auto.
  - destruct (get r (s_runs st)) as [s|]; [|auto]. destruct (busy st r); [auto|].
    destruct (mark_failed s); auto.
  - destruct (get r (s_runs st)) as [s|]; [|auto]. destruct (init_metadata e s); auto.
  - destruct (get r (s_runs st)) as [[conns b sg h|[c js] m b active h|ec m seen mp h old|rr old]|]; simpl in *; auto.
    all: apply nth_snoc_inv in H as [H|(Hn & -> & H)]; [auto|discriminate].
  - destruct (nth_error (s_reqs st) k0) as [[|r0 e [j|j ts|j]|]|] eqn:Eq; auto.
    destruct (get r0 (s_runs st)) as [[| [c js] m b active h| |]|]; auto.
  - destruct (nth_error (s_reqs st) k0) as [[|r0 e [j|j ts|j]|]|] eqn:Eq; auto.
    + destruct (get r0 (s_runs st)) as [[| [c js] m b active h| |]|]; auto.
      destruct (nth_error (st_threads js) j) as [t|]; auto.
      destruct (status_of c t) as [[]|]; auto; simpl in *;
        apply nth_upd_inv in H as [[-> H]|[Hne H]]; try discriminate; auto.
    + destruct (get r0 (s_runs st)) as [s|]; [|auto]. destruct (busy st r0); [auto|].
      destruct (try_mark_end s) as [[? ?] ?]; simpl in *.
      apply nth_upd_inv in H as [[-> H]|[Hne H]]; try discriminate; auto.
  - destruct (get r (s_runs st)) as [s|]; [|auto]. destruct (retry_manifest e s); auto.
  - destruct (get r (s_runs st)) as [s|]; auto.
  - destruct (get r (s_runs st)) as [s|]; [|auto]. destruct (busy st r); [auto|].
    destruct (mark_cancelled e CRUser s); auto.
  - destruct (get r (s_runs st)) as [[| |ec m seen [b|] h old|]|]; auto.
  - destruct (nth_error (s_timers st) i) as [[r last]|]; auto.
    destruct (get r (s_runs st)) as [s|]; auto.
    destruct (query_progress last s); auto; simpl in *;
      apply nth_snoc_inv in H as [H|(Hn & -> & H)]; try discriminate; auto.
  - destruct (nth_error (s_reqs st) k0) as [[| |r last []]|] eqn:Eq; auto.
    destruct (get r (s_runs st)) as [s|]; [|auto]. destruct (busy st r); [auto|].
    destruct (is_cancel (query_progress last s)); simpl in *.
    + apply nth_upd_inv in H as [[-> H]|[Hne H]]; try discriminate; auto.
    + destruct (query_progress last s); simpl in *;
        apply nth_upd_inv in H as [[-> H]|[Hne H]]; try discriminate; auto.
  - auto.
  - auto.
Qed.

Lemma finv_step st ev : finv st -> finv (step st ev).
Proof.
  intros [H1 H2]. split.
  - intros k p H. destruct (find_reqs _ _ _ _ _ H) as [[H'|H'] _]; auto.
    apply get_stays. eapply H1; eauto.
  - intros k p pc H. destruct (find_reqs _ _ _ _ _ H) as [_ [H'|[pc' H']]]; auto. eapply H2; eauto.
Qed.

Definition batch_ok (s : run_state T M) : Prop :=
  match s with
  | Waiting _ b _ _ | HasWork _ _ b _ _ => 1 <= b <= MAX_BATCH_SIZE
  | _ => True
  end.
Definition binv st : Prop := forall r s, get r (s_runs st) = Some s -> batch_ok s.

Lemma binv_step st ev : finv st -> binv st -> binv (step st ev).
Proof.
  intros [_ HF] HB r s'. destruct (step_effect st ev r) as (os & He & _).
  assert (HBr := HB r).
  destruct He; auto; intros [= <-];
    try (match goal with H : get r (s_runs st) = Some _ |- _ => specialize (HBr _ H) end);
    auto; try exact I; try (op_cases; simpl in *; auto; fail).
  match goal with H : nth_error (s_reqs st) _ = Some (QFind p _) |- _ => specialize (HF _ _ _ H) end.
  simpl. unfold clamp_batch, MAX_BATCH_SIZE.
  destruct (Nat.ltb_spec 100 (fp_batch p)); lia.
Qed.

End Inv.
