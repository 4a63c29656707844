From Verif Require Import Base JobQueueModel WorkerSetModel WorkerSetSpec WorkerSetProofs RunModel RunSpec RunProofs RunInv RunLemmas RunParts ActiveSpec.

Lemma tag_eqb_refl t : tag_eqb t t = true. Proof. now apply tag_eqb_true. Qed.
Lemma tag_eqb_neq t t' : t <> t' -> tag_eqb t t' = false.
Proof. intros N. destruct (tag_eqb t t') eqn:E; [|reflexivity]. apply tag_eqb_true in E. contradiction. Qed.

Section Sets.
Context {A : Type}.
Implicit Types (s : wset A).

Lemma entry_some_in s t p : entry s t = Some p -> In p s /\ en_tag (fst p) = t.
Proof. unfold entry. intros H. apply find_some in H as [H1 H2]. split; [exact H1|now apply tag_eqb_true]. Qed.

Lemma entry_nodup s p : NoDup (tags s) -> In p s -> entry s (en_tag (fst p)) = Some p.
Proof.
  induction s as [|q s IH]; [intros _ []|]. cbn [tags map entry find]. intros N [->|H].
  - now rewrite tag_eqb_refl.
  - inversion N as [|? ? N1 N2]; subst. rewrite tag_eqb_neq; [now apply IH|].
    intros E. apply N1. rewrite E. apply in_map_iff. now exists p.
Qed.

(* Who is listed by a test on the value *)
Lemma listed_iff (P : entity * A -> bool) s t : (forall e e' v, P (e, v) = P (e', v)) -> NoDup (tags s) ->
  (In t (map (fun p => en_tag (fst p)) (filter P s)) <-> exists p, entry s t = Some p /\ P p = true).
Proof.
  intros HP N. rewrite in_map_iff. split.
  - intros (p & <- & H). apply filter_In in H as [H1 H2]. exists p. split; [now apply entry_nodup|exact H2].
  - intros (p & E & H). apply entry_some_in in E as [E1 E2]. exists p. split; [exact E2|]. now apply filter_In.
Qed.

Lemma nodup_insert s e v : NoDup (tags s) -> NoDup (tags (insert_by_tag e v s)).
Proof. intros H. exact (nodup_op s (WInsert e v) H). Qed.
Lemma nodup_insert_if_missing s e v : NoDup (tags s) -> NoDup (tags (insert_by_tag_if_missing e v s)).
Proof. intros H. exact (nodup_op s (WInsertIfMissing e v) H). Qed.

(* Inserting pairs of different tags: the entry is the pair *)
Lemma insert_new s e v : contains_by_tag s e = false -> insert_by_tag e v s = s ++ [(e, v)].
Proof.
  unfold contains_by_tag. induction s as [|p s IH]; cbn; [reflexivity|].
  destruct (tag_eqb (en_tag (fst p)) (en_tag e)); cbn; [discriminate|]. intros H. now rewrite IH.
Qed.
Lemma from_iter_nodup (l : list (entity * A)) : NoDup (tags l) -> from_iter l = l.
Proof.
  unfold from_iter. intros N.
  assert (X : forall l acc, NoDup (tags (acc ++ l)) -> fold_left (fun s p => insert_by_tag (fst p) (snd p) s) l acc = acc ++ l).
  { clear. induction l as [|p l IH]; intros acc N; cbn [fold_left]; [now rewrite app_nil_r|].
    rewrite insert_new.
    - rewrite IH; rewrite <- app_assoc; cbn [app]; destruct p; [reflexivity|exact N].
    - destruct (contains_by_tag acc (fst p)) eqn:C; [|reflexivity]. apply contains_tags in C.
      unfold tags in N, C. rewrite map_app in N. cbn [map] in N. apply NoDup_remove_2 in N. destruct N. apply in_or_app. now left. }
  now rewrite X.
Qed.
End Sets.

Lemma tags_map {A B} (g : entity * A -> B) (l : list (entity * A)) : tags (map (fun p => (fst p, g p)) l) = tags l.
Proof. unfold tags. rewrite map_map. reflexivity. Qed.

Lemma entry_map {A B} (g : A -> B) (l : list (entity * A)) t :
  entry (map (fun p => (fst p, g (snd p))) l) t = option_map (fun p => (fst p, g (snd p))) (entry l t).
Proof. unfold entry. induction l as [|p l IH]; cbn; [reflexivity|]. destruct (tag_eqb (en_tag (fst p)) t); cbn; auto. Qed.

Lemma fold_insert_const {A B} (v : B) (l : list (entity * A)) :
  fold_left (fun a p => insert_by_tag (fst p) v a) l [] = from_iter (map (fun p => (fst p, v)) l).
Proof.
  unfold from_iter. generalize (@nil (entity * B)). induction l as [|p l IH]; intros acc; cbn; [reflexivity|]. apply IH.
Qed.

Section Active.
Context {T M : Type}.
Implicit Types (st : state T M) (r : run_id) (h : list (obs T M)) (t : tag).

(* Whom the queue counts as active *)
Definition counted_active (st : state T M) (r : run_id) : list tag :=
  match get r (s_runs st) with
  | Some (HasWork _ _ _ active _) => map (fun p => en_tag (fst p)) (filter (fun p : entity * option nat => match snd p with None => true | Some _ => false end) active)
  | Some (Done _ _ seen _ _ _) => map (fun p => en_tag (fst p)) (filter (fun p : entity * bool => snd p) seen)
  | _ => []
  end.

Lemma nodup_from_iter {A} (l : list (entity * A)) : NoDup (tags (from_iter l)).
Proof. rewrite from_iter_ops. apply nodup_ops. constructor. Qed.
Lemma nodup_fold {A B} (v : B) (l : list (entity * A)) : NoDup (tags (fold_left (fun a p => insert_by_tag (fst p) v a) l [])).
Proof. rewrite fold_insert_const. apply nodup_from_iter. Qed.

(* one entry per worker, everywhere *)
Definition sets_ok (o : option (run_state T M)) (h : list (obs T M)) : Prop :=
  match o with
  | Some (Waiting conns _ _ _) => NoDup (tags conns)
  | Some (HasWork _ _ _ active _) => NoDup (tags active)
  | Some (Done _ _ seen _ _ _) => NoDup (tags seen)
  | _ => True
  end.

Ltac known IH := repeat match goal with H : get _ (s_runs _) = _ |- _ => rewrite H in IH; clear H end.

Lemma sets_ok_reach r st : reachable st -> sets_ok (get r (s_runs st)) (history st r).
Proof.
  apply (history_ind r sets_ok); [exact I|].
  intros st0 os o' HR IH He.
  destruct He; try exact IH; known IH; try op_cases; cbn [sets_ok loaded_run fresh_run] in IH |- *;
    auto using nodup_insert, nodup_insert_if_missing, nodup_from_iter, nodup_fold; try (constructor; fail).
  - apply nodup_insert. constructor.
Qed.

(* Those that left *)
Definition gone_inv t (o : option (run_state T M)) (h : list (obs T M)) : Prop :=
  match o with
  | None => gone t h = false
  | Some (HasWork _ _ _ active _) => gone t h = true -> exists e n, entry active t = Some (e, Some n)
  | Some (Done _ _ seen _ _ _) => gone t h = true -> exists e, entry seen t = Some (e, false)
  | _ => True
  end.

Lemma gone_snoc t h o : gone t (h ++ [o]) = if leaves t o then true else if comes_back t o || accepted_manifest o then false else gone t h.
Proof. unfold gone. now rewrite fold_left_app. Qed.
Lemma gone_snoc2 t h o o' : gone t (h ++ [o; o']) = gone t ((h ++ [o]) ++ [o']).
Proof. now rewrite <- app_assoc. Qed.

Ltac said := rewrite ?app_nil_r, ?gone_snoc2, ?gone_snoc; unfold leaves, comes_back, about_worker;
  cbn [obs_entity en_tag fp_entity accepted_manifest andb orb].

Lemma gone_ok t r st : reachable st -> gone_inv t (get r (s_runs st)) (history st r).
Proof.
  apply (history_ind r (gone_inv t)); [reflexivity|].
  intros st0 os o' HR IH He. assert (SO := sets_ok_reach r st0 HR).
  destruct He; try solve [exfalso; eapply unknown_impossible; eauto].
  all: try match goal with H : get _ (s_runs _) = _ |- _ => rewrite H in IH, SO end; try op_cases; cbn [gone_inv loaded_run fresh_run sets_ok] in IH, SO |- *; try exact I; said;
    rewrite ?Bool.andb_false_r, ?Bool.andb_true_r, ?entry_insert, ?entry_insert_if_missing; cbn [orb]; try exact IH; try congruence;
    try (destruct (get r (s_runs st0)) as [[]|]; cbn [gone_inv] in IH |- *; said; rewrite ?Bool.andb_false_r; exact IH);
    try (destruct (tag_eqb _ t); cbn [orb andb]; intros G; try discriminate; auto; eauto; fail);
    try (destruct (tag_eqb _ t); cbn [orb andb]; intros G; try discriminate; destruct (IH G) as (? & ? & ->); eauto; fail);
    try (destruct (tag_eqb _ t); cbn [orb andb]; intros G; try discriminate; destruct (IH G) as (? & ->); eauto; fail).
  - intros G. apply IH. revert G. destruct (tag_eqb _ t && _ || false); congruence.
  - intros G. destruct (IH G) as (e0 & n & E).
    rewrite from_iter_nodup by (rewrite (tags_map (fun p : entity * option nat => match snd p with None => true | Some _ => false end)); exact SO).
    rewrite (entry_map (fun v : option nat => match v with None => true | Some _ => false end)), E. cbn. eauto.
Qed.

(* Those at work *)
Definition fresh_book : book := {| bk_tests := false; bk_over := false; bk_left := false; bk_here := false |}.
Definition work_inv t (o : option (run_state T M)) (h : list (obs T M)) : Prop :=
  let b := reads t h in
  match o with
  | None => bk_tests b = false /\ bk_over b = false /\ bk_here b = false
  | Some (Waiting conns _ _ _) => bk_tests b = false /\ bk_over b = false /\ (bk_here b = true -> exists p, entry conns t = Some p)
  | Some (HasWork _ _ _ active _) =>
      bk_tests b = true /\ bk_over b = false /\ (bk_here b = true -> exists e, entry active t = Some (e, None)) /\
      (bk_left b = false -> forall e v, entry active t = Some (e, v) -> v = None)
  | Some (Done _ _ seen mp _ _) =>
      bk_tests b = true ->
      bk_over b = true /\ mp <> MEmpty /\ (bk_here b = true -> exists e, entry seen t = Some (e, true)) /\
      (bk_left b = false -> forall e v, entry seen t = Some (e, v) -> v = true)
  | Some (Cancelled _ _) => True
  end.

Lemma reads_snoc t h o : reads t (h ++ [o]) = note t (reads t h) o.
Proof. unfold reads. now rewrite fold_left_app. Qed.
Lemma reads_snoc2 t h o o' : reads t (h ++ [o; o']) = note t (note t (reads t h) o) o'.
Proof. unfold reads. now rewrite fold_left_app. Qed.

Lemma work_ok t r st : reachable st -> work_inv t (get r (s_runs st)) (history st r).
Proof.
  apply (history_ind r (work_inv t)); [repeat split|].
  intros st0 os o' HR IH He. assert (SO := sets_ok_reach r st0 HR).
  destruct He; try solve [exfalso; eapply unknown_impossible; eauto].
  all: try match goal with H : get _ (s_runs _) = _ |- _ => rewrite H in IH, SO end; try op_cases;
    try (destruct flat as [|f0 fl]; [congruence|]);
    cbn [work_inv loaded_run fresh_run sets_ok] in IH, SO |- *; try exact I; rewrite ?app_nil_r, ?reads_snoc2, ?reads_snoc;
    try exact IH;
    unfold note, leaves, about_worker; cbn [bk_tests bk_over bk_left bk_here obs_entity accepted_tests has_plan length];
    rewrite ?Bool.andb_false_r, ?Bool.andb_true_r, ?Bool.orb_false_r, ?Bool.orb_true_r, ?entry_insert, ?entry_insert_if_missing.
  all: try exact IH.
  all: try (destruct (reads t (history st0 r)) as [bt bo bl bh]; cbn [bk_tests bk_over bk_left bk_here] in IH |- *).
  all: try (destruct (get r (s_runs st0)) as [[]|]; cbn [work_inv] in IH |- *; rewrite ?reads_snoc; 
            unfold note, leaves, about_worker; cbn [bk_tests bk_over bk_left bk_here obs_entity accepted_tests has_plan]; rewrite ?Bool.andb_false_r, ?Bool.orb_false_r; exact IH).
  all: try (rewrite fold_insert_const, from_iter_nodup by (rewrite (tags_map (fun _ : entity * nat => @None nat)); exact SO);
            rewrite (entry_map (fun _ : nat => @None nat))).
  all: try (rewrite from_iter_nodup by (rewrite (tags_map (fun p : entity * option nat => match snd p with None => true | Some _ => false end)); exact SO);
            rewrite (entry_map (fun v : option nat => match v with None => true | Some _ => false end))).
  all: try match goal with |- context [contains_by_tag ?x ?y] => destruct (contains_by_tag x y) end.
  all: try (destruct s; cbn [phase_of_state] in *; try (exfalso; intuition discriminate); try exact I).
  all: try (intros BT; try (destruct IH as (Ht & Ho & IH); congruence); specialize (IH BT)).
  all: try (destruct IH as (Ht & Ho & IH)); try congruence; subst; cbn [negb andb orb];
       try match goal with |- context [tag_eqb ?x ?t] => destruct (tag_eqb x t) end; cbn [andb negb orb];
       rewrite ?Bool.andb_false_r, ?Bool.orb_true_r, ?Bool.orb_false_r; cbn [negb andb orb];
       try match type of IH with _ /\ _ => destruct IH as [IH1 IH2] end.
  all: try match goal with H : context [entry ?s ?t = _] |- _ => destruct (entry s t) as [[? ?]|] end.
  all: cbn [option_map fst snd].
  all: repeat match goal with b : bool |- _ => destruct b end; cbn [negb orb andb].
  all: repeat match goal with H : true = true -> _ |- _ => specialize (H eq_refl) | H : false = false -> _ |- _ => specialize (H eq_refl) | H : exists _, _ |- _ => destruct H as [? H] end.
  all: repeat split; try congruence; intros; try discriminate; eauto.
  all: try match goal with IH2 : forall e v, Some (?a, ?b) = Some (e, v) -> v = _ |- _ => pose proof (IH2 a b eq_refl); subst end.
  all: try match goal with H : Some (_, ?b) = Some (_, _) |- _ => injection H as ? ?; subst end.
  all: try congruence; eauto.
Qed.

(* Whoever counts as active was heard of. *)
Definition heard_inv (o : option (run_state T M)) (h : list (obs T M)) : Prop :=
  match o with
  | Some (Done _ _ seen _ _ _) => forall p, In p seen -> snd p = true -> spoke (en_tag (fst p)) h
  | _ => True
  end.
Lemma in_insert {A} (s : wset A) e v p : In p (insert_by_tag e v s) -> p = (e, v) \/ In p s.
Proof. induction s as [|q s IH]; cbn; [intuition|]. destruct (tag_eqb _ _); cbn; intuition. Qed.
Lemma in_insert_if_missing {A} (s : wset A) e v p : In p (insert_by_tag_if_missing e v s) -> p = (e, v) \/ In p s.
Proof. unfold insert_by_tag_if_missing. destruct (contains_by_tag s e); [auto|]. intros H. apply in_app_or in H as [H|[<-|[]]]; auto. Qed.
Lemma in_from_iter {A} (l : list (entity * A)) p : In p (from_iter l) -> In p l.
Proof.
  unfold from_iter. assert (X : forall l acc, In p (fold_left (fun s p => insert_by_tag (fst p) (snd p) s) l acc) -> In p acc \/ In p l).
  { clear. induction l as [|q l IH]; cbn; intros acc H; [auto|]. destruct (IH _ H) as [H1|H1]; [|auto].
    apply in_insert in H1 as [->|H1]; [right; left; destruct q; reflexivity|auto]. }
  intros H. destruct (X l [] H) as [[]|]; assumption.
Qed.
Lemma spoke_new t h os o e : In o os -> obs_entity o = Some e -> en_tag e = t -> spoke t (h ++ os).
Proof. intros H H1 H2. exists o, e. repeat split; auto. apply in_app_iff; auto. Qed.
Lemma spoke_old t h os : spoke t h -> spoke t (h ++ os).
Proof. intros (o & e & H & H1). exists o, e. split; [apply in_app_iff; auto|exact H1]. Qed.

Lemma heard_ok r st : reachable st -> heard_inv (get r (s_runs st)) (history st r).
Proof.
  apply (history_ind r heard_inv); [exact I|].
  intros st0 os o' HR IH He. assert (PI := pinv_ok r st0 HR).
  assert (K : forall os, heard_inv (get r (s_runs st0)) (history st0 r ++ os)).
  { intros os0. destruct (get r (s_runs st0)) as [[]|]; cbn in IH |- *; auto using spoke_old. }
  destruct He; try solve [exfalso; eapply unknown_impossible; eauto]; try apply K;
    match goal with H : get _ (s_runs _) = _ |- _ => rewrite H in IH, K, PI end; try op_cases;
    cbn [heard_inv pinv loaded_run fresh_run] in IH, K, PI |- *; try exact I; try apply K.
  all: try (intros pp Hp Hs; first [apply in_insert in Hp as [->|Hp]|apply in_insert_if_missing in Hp as [->|Hp]];
            [first [discriminate|eapply spoke_new; [left; reflexivity|reflexivity|reflexivity]]|now apply K]).
  - intros pp Hp Hs. apply in_from_iter, in_map_iff in Hp as (e & <- & _). discriminate.
  - intros pp [].
  - intros pp Hp Hs. apply in_from_iter, in_map_iff in Hp as (q & <- & Hq). apply spoke_old, PI. apply in_map_iff. now exists q.
Qed.

Lemma counted_listed st r t : reachable st ->
  (In t (counted_active st r) <->
   match get r (s_runs st) with
   | Some (HasWork _ _ _ active _) => exists e, entry active t = Some (e, None)
   | Some (Done _ _ seen _ _ _) => exists e, entry seen t = Some (e, true)
   | _ => False
   end).
Proof.
  intros HR. assert (SO := sets_ok_reach r st HR). unfold counted_active. destruct (get r (s_runs st)) as [[]|]; cbn [sets_ok] in SO; try tauto.
  - rewrite (listed_iff (fun p : entity * option nat => match snd p with None => true | Some _ => false end)) by auto. split.
    + intros ([e [v|]] & E & X); [discriminate|eauto].
    + intros (e & E). exists (e, None). auto.
  - rewrite (listed_iff (fun p : entity * bool => snd p)) by auto. split.
    + intros ([e []] & E & X); [eauto|discriminate].
    + intros (e & E). exists (e, true). auto.
Qed.

Lemma gone_not_counted st r t : reachable st -> gone t (history st r) = true -> ~ In t (counted_active st r).
Proof.
  intros HR G. assert (GI := gone_ok t r st HR). rewrite counted_listed by exact HR. unfold gone_inv in GI.
  destruct (get r (s_runs st)) as [[]|]; try tauto.
  - destruct (GI G) as (e & n & ->). intros (e' & E). congruence.
  - destruct (GI G) as (e & ->). intros (e' & E). congruence.
Qed.

Lemma at_work_counted st r t : reachable st -> at_work t (history st r) = true -> phase_of st r <> Some PhCancelled -> In t (counted_active st r).
Proof.
  intros HR A P. assert (WI := work_ok t r st HR). rewrite counted_listed by exact HR. unfold work_inv in WI. unfold at_work in A.
  apply Bool.andb_true_iff in A as [A1 A2]. unfold phase_of in P. destruct (get r (s_runs st)) as [[]|]; cbn in P.
  - destruct WI; congruence.
  - destruct WI as (_ & _ & W & _). auto.
  - destruct (WI A1) as (_ & _ & W & _). auto.
  - congruence.
  - destruct WI; congruence.
Qed.

Lemma all_gone_idle st r : reachable st -> phase_of st r = Some PhOver -> (forall t, spoke t (history st r) -> gone t (history st r) = true) ->
  counted_active st r = [].
Proof.
  intros HR P G. destruct (counted_active st r) as [|t l] eqn:E; [reflexivity|]. exfalso.
  assert (C : In t (counted_active st r)) by (rewrite E; now left).
  assert (X : spoke t (history st r)).
  { assert (HI := heard_ok r st HR). unfold phase_of in P. unfold counted_active in C. destruct (get r (s_runs st)) as [[]|]; cbn in P; try discriminate.
    cbn [heard_inv] in HI. apply in_map_iff in C as (p & <- & C). apply filter_In in C as [C1 C2]. auto. }
  exact (gone_not_counted st r t HR (G t X) C).
Qed.
End Active.
