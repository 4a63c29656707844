From Verif Require Import Base StatusModel ReportModel ReportSpec.
From Coq Require Import Sorting.Sorted.

(* ---- the order of results ---- *)

Lemma ncmp_eq a b : Nat.compare a b = Eq <-> a = b.
Proof. apply Nat.compare_eq_iff. Qed.
Lemma ocmp_eq a b : ocmp a b = Eq <-> a = b.
Proof. destruct a, b; simpl; try (split; congruence). rewrite ncmp_eq. split; congruence. Qed.
Lemma kcmp_eq a b : kcmp a b = Eq <-> a = b.
Proof.
  destruct a as [[w t] n], b as [[w' t'] n']. simpl. split.
  - intros H. destruct (Nat.compare w w') eqn:E1; simpl in H; try discriminate. apply ncmp_eq in E1.
    destruct (ocmp t t') eqn:E2; simpl in H; try discriminate. apply ocmp_eq in E2. apply ncmp_eq in H. congruence.
  - intros H. injection H as -> -> ->. rewrite (proj2 (ncmp_eq w' w') eq_refl), (proj2 (ocmp_eq t' t') eq_refl). simpl. now apply ncmp_eq.
Qed.
Lemma ocmp_opp a b : ocmp b a = CompOpp (ocmp a b).
Proof. destruct a, b; simpl; auto. apply Nat.compare_antisym. Qed.
Lemma kcmp_opp a b : kcmp b a = CompOpp (kcmp a b).
Proof.
  destruct a as [[w t] n], b as [[w' t'] n']. simpl. rewrite (Nat.compare_antisym w w'), (ocmp_opp t t'), (Nat.compare_antisym n n').
  destruct (Nat.compare w w'); simpl; auto. destruct (ocmp t t'); simpl; auto.
Qed.
Lemma ocmp_lt_trans a b c : ocmp a b = Lt -> ocmp b c = Lt -> ocmp a c = Lt.
Proof. destruct a, b, c; simpl; try discriminate; auto. rewrite !Nat.compare_lt_iff. lia. Qed.
Lemma kcmp_lt_trans a b c : kcmp a b = Lt -> kcmp b c = Lt -> kcmp a c = Lt.
Proof.
  destruct a as [[w t] n], b as [[w' t'] n'], c as [[w'' t''] n'']. simpl. intros H1 H2.
  destruct (Nat.compare w w') eqn:A1; simpl in H1; try discriminate; destruct (Nat.compare w' w'') eqn:A2; simpl in H2; try discriminate.
  - apply ncmp_eq in A1 as ->. rewrite A2. simpl.
    destruct (ocmp t t') eqn:B1; simpl in H1; try discriminate; destruct (ocmp t' t'') eqn:B2; simpl in H2; try discriminate.
    + apply ocmp_eq in B1 as ->. rewrite B2. simpl. rewrite Nat.compare_lt_iff in *. lia.
    + apply ocmp_eq in B1 as ->. now rewrite B2.
    + apply ocmp_eq in B2 as ->. now rewrite B1.
    + now rewrite (ocmp_lt_trans _ _ _ B1 B2).
  - apply ncmp_eq in A1 as ->. now rewrite A2.
  - apply ncmp_eq in A2 as ->. now rewrite A1.
  - rewrite Nat.compare_lt_iff in A1, A2. rewrite (proj2 (Nat.compare_lt_iff w w'')) by lia. reflexivity.
Qed.

Lemma ale_refl a : ale a a.
Proof. unfold ale, acmp. rewrite (proj2 (kcmp_eq _ _) eq_refl). discriminate. Qed.
Lemma ale_total a b : ale a b \/ ale b a.
Proof. unfold ale, acmp. rewrite (kcmp_opp (key_triple a) (key_triple b)). destruct (kcmp _ _); simpl; [left|left|right]; discriminate. Qed.
Lemma ale_antisym a b : ale a b -> ale b a -> key_triple a = key_triple b.
Proof.
  unfold ale, acmp. rewrite (kcmp_opp (key_triple a) (key_triple b)). intros H1 H2. apply kcmp_eq. destruct (kcmp _ _); simpl in *; auto; [now contradiction H2|now contradiction H1].
Qed.
Lemma ale_trans a b c : ale a b -> ale b c -> ale a c.
Proof.
  unfold ale, acmp. intros H1 H2. destruct (kcmp (key_triple a) (key_triple b)) eqn:E1; [|destruct (kcmp (key_triple b) (key_triple c)) eqn:E2|]; try congruence.
  - apply kcmp_eq in E1. now rewrite E1.
  - apply kcmp_eq in E2. rewrite <- E2. congruence.
  - now rewrite (kcmp_lt_trans _ _ _ E1 E2).
Qed.

(* sorted lists with the same keys have the same sequence of keys *)
Lemma sorted_keys_unique l1 : forall l2, Permutation (map key_triple l1) (map key_triple l2) -> StronglySorted ale l1 -> StronglySorted ale l2 ->
  map key_triple l1 = map key_triple l2.
Proof.
  induction l1 as [|a l1 IH]; intros l2 P S1 S2.
  - destruct l2; auto. apply Permutation_nil in P. discriminate.
  - destruct l2 as [|b l2]; [apply Permutation_sym, Permutation_nil in P; discriminate|].
    inversion S1 as [|? ? S1' F1]; subst. inversion S2 as [|? ? S2' F2]; subst. rewrite Forall_forall in F1, F2.
    assert (E : key_triple a = key_triple b).
    { apply ale_antisym.
      - assert (I : In (key_triple b) (map key_triple (a :: l1))) by (apply (Permutation_in _ (Permutation_sym P)); left; auto).
        destruct I as [I|I]; [unfold ale, acmp; rewrite I; apply ale_refl|]. apply in_map_iff in I as (x & X1 & X2). specialize (F1 _ X2). unfold ale, acmp in *. now rewrite <- X1.
      - assert (I : In (key_triple a) (map key_triple (b :: l2))) by (apply (Permutation_in _ P); left; auto).
        destruct I as [I|I]; [unfold ale, acmp; rewrite I; apply ale_refl|]. apply in_map_iff in I as (x & X1 & X2). specialize (F2 _ X2). unfold ale, acmp in *. now rewrite <- X1. }
    simpl. f_equal; auto. apply IH; auto. simpl in P. rewrite E in P. now apply Permutation_cons_inv in P.
Qed.

Lemma keys_unique_eq l1 : forall l2, Permutation l1 l2 -> map key_triple l1 = map key_triple l2 -> NoDup (map key_triple l1) -> l1 = l2.
Proof.
  intros l2 P E N. apply nth_error_ext. intros i.
  assert (K : forall a, In a l1 -> forall b, In b l2 -> key_triple a = key_triple b -> a = b).
  { intros a A b B Q. apply (Permutation_in _ (Permutation_sym P)) in B. clear -A B Q N. induction l1 as [|x l IH]; [destruct A|].
    simpl in N. inversion N as [|? ? NI N']; subst. destruct A as [->|A], B as [->|B]; auto.
    - exfalso. apply NI. rewrite Q. now apply in_map.
    - exfalso. apply NI. rewrite <- Q. now apply in_map. }
  assert (Q : nth_error (map key_triple l1) i = nth_error (map key_triple l2) i) by now rewrite E.
  rewrite !nth_error_map in Q. destruct (nth_error l1 i) as [a|] eqn:A, (nth_error l2 i) as [b|] eqn:B; cbn [option_map] in Q; try discriminate; auto.
  assert (Q' : key_triple a = key_triple b) by congruence. f_equal. apply K; auto; eapply nth_error_In; eauto.
Qed.

(* an insertion sort is one way to meet what is asked of the sort *)
Fixpoint ins (a : assoc) (l : list assoc) : list assoc :=
  match l with [] => [a] | x :: t => match acmp a x with Gt => x :: ins a t | _ => a :: l end end.
Definition isort (l : list assoc) : list assoc := fold_right ins [] l.
Lemma ins_perm a l : Permutation (a :: l) (ins a l).
Proof. induction l as [|x t IH]; simpl; auto. destruct (acmp a x); auto. rewrite perm_swap. now constructor. Qed.
Lemma ins_sorted a l : StronglySorted ale l -> StronglySorted ale (ins a l).
Proof.
  induction l as [|x t IH]; intros S0; simpl; [repeat constructor|]. inversion S0 as [|? ? S' F]; subst. destruct (acmp a x) eqn:E.
  - constructor; auto. constructor; [unfold ale; congruence|]. rewrite Forall_forall in *. intros y Y. apply ale_trans with x; auto. unfold ale; congruence.
  - constructor; auto. constructor; [unfold ale; congruence|]. rewrite Forall_forall in *. intros y Y. apply ale_trans with x; auto. unfold ale; congruence.
  - constructor; auto. rewrite Forall_forall in *. intros y Y. apply (Permutation_in _ (Permutation_sym (ins_perm a t))) in Y as [<-|Y]; auto.
    destruct (ale_total a x) as [Q|Q]; auto. now contradiction Q.
Qed.
Lemma isort_sorter : sorter isort.
Proof.
  intros l. split.
  - induction l as [|a l IH]; simpl; auto. rewrite <- ins_perm. now constructor.
  - induction l as [|a l IH]; simpl; [constructor|]. now apply ins_sorted.
Qed.

(* ---- maps ---- *)

Section MapLemmas.
Context {V : Type}.
Implicit Types (l : list (nat * V)).
Lemma mget_mput k v l k' : mget k' (mput k v l) = if Nat.eqb k' k then Some v else mget k' l.
Proof.
  induction l as [|[k0 v0] t IH]; simpl.
  - destruct (Nat.eqb k' k); auto.
  - destruct (Nat.eqb_spec k k0) as [->|N]; simpl.
    + destruct (Nat.eqb_spec k' k0); auto.
    + destruct (Nat.eqb_spec k' k0) as [->|N']; auto. destruct (Nat.eqb_spec k0 k); congruence.
Qed.
Lemma mput_keys k v l : In k (map fst l) -> map fst (mput k v l) = map fst l.
Proof. induction l as [|[k0 v0] t IH]; simpl; [tauto|]. destruct (Nat.eqb_spec k k0) as [->|N]; simpl; auto. intros [->|H]; [congruence|]. f_equal; auto. Qed.
Lemma mput_new k v l : ~ In k (map fst l) -> mput k v l = l ++ [(k, v)].
Proof. induction l as [|[k0 v0] t IH]; simpl; auto. intros H. destruct (Nat.eqb_spec k k0) as [->|N]; [tauto|]. f_equal. apply IH. tauto. Qed.
Lemma mput_nodup k v l : NoDup (map fst l) -> NoDup (map fst (mput k v l)).
Proof.
  intros N. destruct (in_dec Nat.eq_dec k (map fst l)) as [I|I]; [now rewrite mput_keys|]. rewrite mput_new, map_app by auto. simpl.
  apply Permutation_NoDup with (k :: map fst l); [apply Permutation_cons_append|now constructor].
Qed.
Lemma mget_in k l v : mget k l = Some v -> In (k, v) l.
Proof. induction l as [|[k0 v0] t IH]; simpl; [discriminate|]. destruct (Nat.eqb_spec k k0) as [->|N]; auto. intros H. injection H as ->. auto. Qed.
Lemma in_mget k l v : NoDup (map fst l) -> In (k, v) l -> mget k l = Some v.
Proof.
  induction l as [|[k0 v0] t IH]; simpl; [tauto|]. intros N I. inversion N as [|? ? NI N']; subst. destruct I as [I|I].
  - injection I as -> ->. now rewrite Nat.eqb_refl.
  - destruct (Nat.eqb_spec k k0) as [->|E]; auto. exfalso. apply NI. apply in_map_iff. exists (k0, v). auto.
Qed.
Lemma mget_none k l : mget k l = None <-> ~ In k (map fst l).
Proof.
  induction l as [|[k0 v0] t IH]; simpl; [tauto|]. destruct (Nat.eqb_spec k k0) as [->|N]; [split; [discriminate|tauto]|]. rewrite IH. split; [intros H [->|Q]; congruence|tauto].
Qed.
Lemma mdel_incl k l x : In x (mdel k l) -> In x l.
Proof. induction l as [|[k0 v0] t IH]; simpl; auto. destruct (Nat.eqb k k0); simpl; tauto. Qed.
Lemma mdel_nodup k l : NoDup (map fst l) -> NoDup (map fst (mdel k l)).
Proof.
  induction l as [|[k0 v0] t IH]; simpl; auto. intros N. inversion N as [|? ? NI N']; subst. destruct (Nat.eqb k k0); auto. simpl. constructor; auto.
  intros I. apply NI. apply in_map_iff in I as (x & X1 & X2). apply in_map_iff. exists x. split; auto. now apply mdel_incl in X2.
Qed.
End MapLemmas.

(* ---- the status of a test ---- *)

Definition tag_of (h : list (nat * bool)) : tagst := fold_left (fun t a => next_tag t (fst a) (snd a)) h NeverFailed.

Lemma tag_snoc h a : tag_of (h ++ [a]) = next_tag (tag_of h) (fst a) (snd a).
Proof. unfold tag_of. now rewrite fold_left_app. Qed.

Lemma taken_snoc h a : taken_for_failed (h ++ [a]) <-> (taken_for_failed h /\ failed_attempt a) \/ (Forall passed_attempt h /\ a = (1, true)).
Proof.
  split.
  - intros (ps & fs & E & P & F). destruct fs as [|x fs' _] using rev_ind.
    + apply app_inj_tail in E as [-> ->]. auto.
    + rewrite app_comm_cons, app_assoc in E. apply app_inj_tail in E as [-> ->]. apply Forall_app in F as [F1 F2]. inversion F2; subst. left. split; auto. exists ps, fs'. auto.
  - intros [[(ps & fs & -> & P & F) A]|[P ->]].
    + exists ps, (fs ++ [a]). rewrite <- app_assoc. simpl. split; auto. split; auto. apply Forall_app. auto.
    + exists h, []. auto.
Qed.
Lemma taken_not_passed h : taken_for_failed h -> ~ Forall passed_attempt h.
Proof. intros (ps & fs & -> & _ & _) P. apply Forall_app in P as [_ P]. inversion P as [|? ? Q]. discriminate. Qed.

Lemma tag_spec h : match tag_of h with
                   | NeverFailed => Forall passed_attempt h
                   | AlwaysFailed i => i = false /\ taken_for_failed h
                   | _ => ~ Forall passed_attempt h /\ ~ taken_for_failed h
                   end.
Proof.
  induction h as [|a h IH] using rev_ind; [constructor|]. rewrite tag_snoc. destruct a as [n b]; cbn [fst snd].
  assert (FA : Forall passed_attempt (h ++ [(n, b)]) <-> Forall passed_attempt h /\ b = false).
  { rewrite Forall_app. split; intros [A B]; split; auto; try (now inversion B); subst b; repeat constructor. }
  assert (NP := taken_not_passed h).
  destruct (tag_of h) as [|i| |]; cbn [next_tag].
  - destruct b; [|apply FA; auto]. destruct (Nat.eqb_spec n 1) as [->|N].
    + split; auto. apply taken_snoc. auto.
    + rewrite FA, taken_snoc. split; [intros [_ Q]; discriminate|]. intros [[T _]|[_ Q]]; [now apply NP|congruence].
  - destruct IH as [-> T]. destruct b.
    + split; auto. apply taken_snoc. left. split; auto. reflexivity.
    + rewrite FA, taken_snoc. specialize (NP T). split; [tauto|]. intros [[_ Q]|[Q _]]; [discriminate|tauto].
  - rewrite FA, taken_snoc. tauto.
  - rewrite FA, taken_snoc. tauto.
Qed.

Lemma tag_failed h : tag_of h = AlwaysFailed false <-> taken_for_failed h.
Proof.
  pose proof (tag_spec h) as S0. pose proof (taken_not_passed h). split; intros H0.
  - rewrite H0 in S0. tauto.
  - destruct (tag_of h) as [|i| |]; try tauto. destruct S0 as [-> _]. auto.
Qed.
Lemma tag_not_internal h : tag_of h <> AlwaysFailed true.
Proof. pose proof (tag_spec h) as S0. intros E. rewrite E in S0. destruct S0. discriminate. Qed.

(* ---- aggregated metrics ---- *)

Definition is_failed (s : tstatus) : bool := match ts_tag s with AlwaysFailed _ => true | _ => false end.
Definition is_internal (s : tstatus) : bool := match ts_tag s with AlwaysFailed i => i | _ => false end.

Lemma aggregate_spec l : aggregate l = {| m_failed := length (filter is_failed l); m_retried := length (filter ts_retried l);
  m_exit := if existsb is_internal l then ABQ_ERROR else if existsb is_failed l then FAILURE else SUCCESS |}.
Proof.
  unfold aggregate. induction l as [|s l IH] using rev_ind; auto. rewrite fold_left_app, IH. cbn [fold_left]. unfold agg_step. cbn [m_failed m_retried m_exit].
  rewrite !filter_app, !app_length, !existsb_app. cbn [filter existsb].
  assert (F1 : is_failed s = match ts_tag s with AlwaysFailed _ => true | _ => false end) by reflexivity.
  assert (F2 : is_internal s = match ts_tag s with AlwaysFailed i => i | _ => false end) by reflexivity. rewrite F1, F2. clear F1 F2.
  destruct (ts_tag s) as [|[|]| |] eqn:T; destruct (ts_retried s) eqn:R; cbn [length]; rewrite ?orb_false_r, ?Nat.add_0_r, ?Nat.add_1_r; cbn [orb];
    rewrite ?orb_true_r; try reflexivity; destruct (existsb is_internal l), (existsb is_failed l); reflexivity.
Qed.
Lemma existsb_perm {A} (f : A -> bool) l l' : Permutation l l' -> existsb f l = existsb f l'.
Proof. induction 1; simpl; auto; [now rewrite IHPermutation|rewrite !orb_assoc, (orb_comm (f y)); auto|congruence]. Qed.
Lemma filter_perm {A} (f : A -> bool) l l' : Permutation l l' -> Permutation (filter f l) (filter f l').
Proof. induction 1; simpl; auto; [destruct (f x); auto|destruct (f x), (f y); auto using perm_swap|now rewrite IHPermutation1]. Qed.
Lemma aggregate_perm l l' : Permutation l l' -> aggregate l = aggregate l'.
Proof.
  intros P. rewrite !aggregate_spec, (existsb_perm _ _ _ P), (existsb_perm is_failed _ _ P).
  now rewrite (Permutation_length (filter_perm is_failed _ _ P)), (Permutation_length (filter_perm ts_retried _ _ P)).
Qed.

(* ---- made-up results ---- *)

Lemma unreplaced_snoc es e : unreplaced (es ++ [e]) =
  if material e then filter (fun e' => negb (Nat.eqb (e_work e') (e_work e))) (unreplaced es) else unreplaced es ++ [e].
Proof.
  induction es as [|x es IH]; simpl.
  - destruct (material e) eqn:M; simpl; auto.
  - destruct (material x) eqn:MX; auto. rewrite existsb_app. cbn [existsb]. rewrite IH.
    destruct (existsb (fun e' => material e' && Nat.eqb (e_work e') (e_work x)) es) eqn:EX; cbn [orb].
    + destruct (material e); auto.
    + destruct (material e) eqn:M; cbn [andb orb app].
      * cbn [filter]. rewrite (Nat.eqb_sym (e_work x)). destruct (Nat.eqb (e_work e) (e_work x)); reflexivity.
      * reflexivity.
Qed.
Lemma unreplaced_in es e : In e (unreplaced es) <-> exists l1 l2, es = l1 ++ e :: l2 /\ material e = false /\ forall e', In e' l2 -> material e' = true -> e_work e' <> e_work e.
Proof.
  induction es as [|x es IH]; simpl.
  - split; [tauto|]. intros (l1 & l2 & E & _). destruct l1; discriminate.
  - assert (STEP : (exists l1 l2, x :: es = l1 ++ e :: l2 /\ material e = false /\ forall e', In e' l2 -> material e' = true -> e_work e' <> e_work e) <->
       (x = e /\ material e = false /\ forall e', In e' es -> material e' = true -> e_work e' <> e_work e) \/ In e (unreplaced es)).
    { rewrite IH. split.
      - intros ([|y l1] & l2 & E & M & F); simpl in E; injection E as -> ->; [left; auto|right; eauto].
      - intros [(-> & M & F)|(l1 & l2 & -> & M & F)]; [exists [], es; auto|exists (x :: l1), l2; auto]. }
    rewrite STEP. destruct (material x) eqn:MX.
    + split; auto. intros [(-> & M & _)|H]; auto. congruence.
    + destruct (existsb (fun e' => material e' && Nat.eqb (e_work e') (e_work x)) es) eqn:EX.
      * split; auto. intros [(-> & M & F)|H]; auto. exfalso. apply existsb_exists in EX as (e' & I & Q). apply andb_prop in Q as [Q1 Q2].
        apply Nat.eqb_eq in Q2. exact (F e' I Q1 Q2).
      * split; [|intros [(-> & _ & _)|H]; simpl; auto]. intros [->|H]; auto. left. repeat split; auto. intros e' I M Q.
        assert (X : existsb (fun e' => material e' && Nat.eqb (e_work e') (e_work e)) es = true). { apply existsb_exists. exists e'. rewrite M, Q, Nat.eqb_refl. auto. } congruence.
Qed.

(* ---- the tracker ---- *)

Definition made_up (e : entry) : nat * tstatus := (r_id (e_result e), make_new (e_result e) (AlwaysFailed true)).
Definition status_of (t : nat) (es : list entry) : option tstatus :=
  match first_result t es with
  | None => None
  | Some e => Some {| ts_tag := tag_of (attempts t es); ts_retried := Nat.leb 2 (length (attempts t es)); ts_file := r_file (e_result e); ts_runner := r_runner (e_result e) |}
  end.

Record TI (es : list entry) (k : tracker) : Prop := {
  ti_n : k_attempts k = length es;
  ti_get : forall t, mget t (k_tests k) = status_of t es;
  ti_nodup : NoDup (map fst (k_tests k));
  ti_del : exists G : list (nat * list entry), k_delayed k = map (fun g => (fst g, map made_up (snd g))) G /\ NoDup (map fst G) /\
           (forall w l, In (w, l) G -> Forall (fun e => e_work e = w) l) /\ Permutation (concat (map snd G)) (unreplaced es);
  ti_cache : match k_cache k with Some (n, m) => n <= k_attempts k /\ (n = k_attempts k -> m = aggregate (statuses k)) | None => True end
}.

Lemma mget_map {V W} (f : V -> W) w (G : list (nat * V)) : mget w (map (fun g => (fst g, f (snd g))) G) = option_map f (mget w G).
Proof. induction G as [|[w' v] G IH]; simpl; auto. destruct (Nat.eqb w w'); auto. Qed.
Lemma mput_map {V W} (f : V -> W) w v (G : list (nat * V)) : mput w (f v) (map (fun g => (fst g, f (snd g))) G) = map (fun g => (fst g, f (snd g))) (mput w v G).
Proof. induction G as [|[w' v'] G IH]; simpl; auto. destruct (Nat.eqb w w'); simpl; auto. now rewrite IH. Qed.
Lemma mdel_map {V W} (f : V -> W) w (G : list (nat * V)) : mdel w (map (fun g => (fst g, f (snd g))) G) = map (fun g => (fst g, f (snd g))) (mdel w G).
Proof. induction G as [|[w' v'] G IH]; simpl; auto. destruct (Nat.eqb w w'); simpl; auto. now rewrite IH. Qed.

Lemma group_add (G : list (nat * list entry)) w e :
  Permutation (concat (map snd (mput w ((match mget w G with Some l => l | None => [] end) ++ [e]) G))) (concat (map snd G) ++ [e]).
Proof.
  induction G as [|[w' l] G IH]; simpl; auto. destruct (Nat.eqb w w'); simpl.
  - rewrite <- !app_assoc. apply Permutation_app_head. apply Permutation_app_comm.
  - rewrite IH, app_assoc. reflexivity.
Qed.
Lemma group_del (G : list (nat * list entry)) w : NoDup (map fst G) -> (forall w' l, In (w', l) G -> Forall (fun e => e_work e = w') l) ->
  concat (map snd (mdel w G)) = filter (fun e => negb (Nat.eqb (e_work e) w)) (concat (map snd G)).
Proof.
  induction G as [|[w' l] G IH]; intros N F; simpl; auto. inversion N as [|? ? NI N']; subst. rewrite filter_app.
  assert (FL : Forall (fun e => e_work e = w') l) by (apply F; left; auto).
  destruct (Nat.eqb_spec w w') as [->|NE].
  - replace (filter (fun e => negb (Nat.eqb (e_work e) w')) l) with (@nil entry).
    + simpl. assert (OK : forall w'' l0, In (w'', l0) G -> Forall (fun e => e_work e <> w') l0).
      { intros w'' l0 I. specialize (F w'' l0 (or_intror I)). rewrite Forall_forall in *. intros x X Q. rewrite (F x X) in Q. subst.
        apply NI. apply in_map_iff. exists (w', l0). auto. }
      clear -OK. induction G as [|[w0 l0] G IH]; simpl; auto. rewrite filter_app, <- IH.
      * f_equal. assert (Q := OK w0 l0 (or_introl eq_refl)). clear -Q. induction l0 as [|x l IH]; simpl; auto. inversion Q; subst.
        destruct (Nat.eqb_spec (e_work x) w'); [congruence|]. simpl. f_equal; auto.
      * intros. eapply OK. right; eauto.
    + clear -FL. induction l as [|x l IH]; simpl; auto. inversion FL; subst. rewrite Nat.eqb_refl. simpl. auto.
  - simpl. rewrite IH; auto.
    + f_equal. clear -FL NE. induction l as [|x l IH]; simpl; auto. inversion FL; subst. destruct (Nat.eqb_spec (e_work x) w); [congruence|]. simpl. f_equal; auto.
    + intros. apply F. right; auto.
Qed.

Lemma attempts_snoc t es e : attempts t (es ++ [e]) = attempts t es ++ (if of_test t e then [(e_run e, is_fail_like (r_status (e_result e)))] else []).
Proof. unfold attempts. rewrite filter_app, map_app. simpl. destruct (of_test t e); auto. Qed.
Lemma first_snoc t es e : first_result t (es ++ [e]) = match first_result t es with Some x => Some x | None => if of_test t e then Some e else None end.
Proof. unfold first_result. rewrite filter_app. simpl. destruct (filter (of_test t) es); simpl; auto. destruct (of_test t e); auto. Qed.
Lemma first_attempts t es : first_result t es = None <-> attempts t es = [].
Proof. unfold first_result, attempts. destruct (filter (of_test t) es); simpl; split; congruence. Qed.
Lemma status_none t es : status_of t es = None <-> attempts t es = [].
Proof. unfold status_of. rewrite <- first_attempts. destruct (first_result t es); split; congruence. Qed.

Lemma account_ti es k e : TI es k -> TI (es ++ [e]) (account_entry k e).
Proof.
  intros [I1 I2 I3 (G & D1 & D2 & D3 & D4) I5]. unfold account_entry, account. destruct (is_synthetic (r_status (e_result e))) eqn:SY.
  - assert (MAT : material e = false) by (unfold material; now rewrite SY). constructor; cbn [k_attempts k_tests k_delayed k_cache]; auto.
    + rewrite app_length, I1. simpl. lia.
    + intros t. rewrite I2. unfold status_of. rewrite first_snoc, attempts_snoc. unfold of_test. rewrite MAT. cbn [andb]. rewrite app_nil_r. now destruct (first_result t es).
    + exists (mput (e_work e) ((match mget (e_work e) G with Some l => l | None => [] end) ++ [e]) G). split; [|split; [|split]].
      * rewrite <- mput_map, D1, (mget_map (map made_up)), map_app. destruct (mget (e_work e) G); reflexivity.
      * now apply mput_nodup.
      * intros w l I. assert (N := mput_nodup (e_work e) ((match mget (e_work e) G with Some l => l | None => [] end) ++ [e]) G D2).
        apply (in_mget _ _ _ N) in I. rewrite mget_mput in I. destruct (Nat.eqb_spec w (e_work e)) as [->|NE].
        -- injection I as <-. apply Forall_app. split; [|repeat constructor]. destruct (mget (e_work e) G) eqn:Q; [|constructor]. apply D3. now apply mget_in.
        -- apply D3. now apply mget_in.
      * rewrite group_add, unreplaced_snoc, MAT. now apply Permutation_app_tail.
    + destruct (k_cache k) as [[n m]|]; auto. destruct I5 as [L _]. split; [lia|lia].
  - assert (MAT : material e = true) by (unfold material; now rewrite SY). constructor; cbn [k_attempts k_tests k_delayed k_cache]; auto.
    + rewrite app_length, I1. simpl. lia.
    + intros t. rewrite mget_mput, !I2. unfold status_of. rewrite first_snoc, attempts_snoc. unfold of_test. rewrite MAT. cbn [andb].
      rewrite (Nat.eqb_sym (r_id (e_result e)) t). destruct (Nat.eqb_spec t (r_id (e_result e))) as [->|NE].
      * rewrite tag_snoc, app_length. cbn [fst snd length]. pose proof (first_attempts (r_id (e_result e)) es) as FA.
        destruct (first_result (r_id (e_result e)) es) as [x|] eqn:FR.
        -- cbn [ts_tag ts_retried ts_file ts_runner negb]. do 2 f_equal. destruct (attempts (r_id (e_result e)) es) as [|a h] eqn:AT.
           ++ exfalso. destruct FA as [_ FA]. specialize (FA eq_refl). discriminate.
           ++ symmetry. apply Nat.leb_le. simpl. lia.
        -- cbn [ts_tag ts_retried ts_file ts_runner negb make_new]. destruct FA as [FA _]. rewrite (FA eq_refl). reflexivity.
      * rewrite app_nil_r. now destruct (first_result t es).
    + now apply mput_nodup.
    + exists (mdel (e_work e) G). split; [|split; [|split]].
      * now rewrite D1, (mdel_map (map made_up)).
      * now apply mdel_nodup.
      * intros w l I. apply D3. now apply mdel_incl in I.
      * rewrite group_del, unreplaced_snoc, MAT by auto. now apply filter_perm.
    + destruct (k_cache k) as [[n m]|]; auto. destruct I5 as [L _]. split; [lia|lia].
Qed.

Lemma ti_new : TI [] tracker_new.
Proof. constructor; simpl; auto; [constructor|]. exists []. repeat split; auto; [constructor|intros w l []]. Qed.

Lemma load_ti es k order : TI es k -> Permutation (statuses k) order ->
  TI es (fst (load_metrics k order)) /\ snd (load_metrics k order) = aggregate (statuses k) /\
  k_tests (fst (load_metrics k order)) = k_tests k /\ k_delayed (fst (load_metrics k order)) = k_delayed k.
Proof.
  intros I P. destruct I as [I1 I2 I3 I4 I5]. unfold load_metrics.
  assert (FRESH : let m := aggregate order in let k' := {| k_attempts := k_attempts k; k_tests := k_tests k; k_delayed := k_delayed k; k_cache := Some (k_attempts k, m) |} in
    TI es (fst (k', m)) /\ snd (k', m) = aggregate (statuses k) /\ k_tests (fst (k', m)) = k_tests k /\ k_delayed (fst (k', m)) = k_delayed k).
  { cbn [fst snd k_tests k_delayed]. rewrite <- (aggregate_perm _ _ P). split; [|repeat split; auto]. constructor; cbn [k_attempts k_tests k_delayed k_cache]; auto. }
  destruct (k_cache k) as [[n m]|] eqn:C; [|exact FRESH]. destruct (Nat.eqb_spec n (k_attempts k)) as [E|E]; [|exact FRESH].
  cbn [fst snd]. destruct I5 as [L Q]. split; [|split; auto]. constructor; auto. rewrite C. auto.
Qed.

(* statuses of the tests and of what is left of the made-up results *)
Lemma test_statuses es k : TI es k -> exists ts, NoDup ts /\ (forall t, In t ts <-> has_result t es) /\
  Permutation (statuses k) (flat_map (fun t => match status_of t es with Some s => [s] | None => [] end) ts ++ map (fun e => make_new (e_result e) (AlwaysFailed true)) (unreplaced es)).
Proof.
  intros [I1 I2 I3 (G & D1 & D2 & D3 & D4) I5]. exists (map fst (k_tests k)). split; auto. split.
  - intros t. pose proof (mget_none t (k_tests k)) as Q. rewrite I2, status_none in Q. unfold has_result. split.
    + intros I E. apply Q in E. contradiction.
    + intros H. destruct (in_dec Nat.eq_dec t (map fst (k_tests k))) as [I|I]; auto. exfalso. apply H. now apply Q.
  - unfold statuses. apply Permutation_app.
    + assert (E : map snd (k_tests k) = flat_map (fun t => match status_of t es with Some s => [s] | None => [] end) (map fst (k_tests k))); [|now rewrite E].
      assert (F : forall t s, In (t, s) (k_tests k) -> status_of t es = Some s) by (intros t s I; rewrite <- I2; now apply in_mget).
      clear -F. induction (k_tests k) as [|[t s] l IH]; simpl; auto. rewrite (F t s) by (left; auto). simpl. f_equal. apply IH. intros. apply F. right; auto.
    + rewrite D1, map_map. cbn [snd]. transitivity (map (fun e => make_new (e_result e) (AlwaysFailed true)) (concat (map snd G))); [|now apply Permutation_map].
      rewrite !concat_map, !map_map. erewrite map_ext; [reflexivity|]. intros g. simpl. rewrite map_map. reflexivity.
Qed.

Lemma exit_of es k : TI es k -> m_exit (aggregate (statuses k)) =
  if existsb (fun _ => true) (unreplaced es) then ABQ_ERROR else if existsb is_failed (map snd (k_tests k)) then FAILURE else SUCCESS.
Proof.
  intros I. destruct I as [I1 I2 I3 (G & D1 & D2 & D3 & D4) I5]. rewrite aggregate_spec. cbn [m_exit]. unfold statuses. rewrite !existsb_app.
  assert (NI : existsb is_internal (map snd (k_tests k)) = false).
  { destruct (existsb is_internal (map snd (k_tests k))) eqn:Q; auto. apply existsb_exists in Q as (s & I & B). apply in_map_iff in I as ([t s'] & <- & I).
    apply (in_mget _ _ _ I3) in I. rewrite I2 in I. unfold status_of in I. destruct (first_result t es); [|discriminate]. injection I as <-. unfold is_internal in B. cbn [snd ts_tag] in B.
    pose proof (tag_not_internal (attempts t es)). destruct (tag_of (attempts t es)); try discriminate. subst. congruence. }
  assert (DL : forall f, f (make_new {| r_id := 0; r_status := Success; r_file := None; r_runner := (0, 0); r_time := 0 |} (AlwaysFailed true)) = true ->
    (forall r, f (make_new r (AlwaysFailed true)) = true) ->
    existsb f (map snd (concat (map snd (k_delayed k)))) = existsb (fun _ => true) (unreplaced es)).
  { intros f _ F. rewrite (existsb_perm _ _ _ (Permutation_sym D4)), D1, map_map. cbn [snd]. rewrite <- map_map with (f := snd) (g := map made_up), <- concat_map, map_map.
    clear -F. induction (concat (map snd G)) as [|x l IH]; simpl; auto. now rewrite F. }
  rewrite NI, !DL by reflexivity. cbn [orb]. destruct (existsb (fun _ => true) (unreplaced es)); auto. now rewrite orb_false_r.
Qed.

Lemma flat_account l k : fold_left handle_account l k = fold_left account_entry (flat l) k.
Proof.
  revert k. induction l as [|a l IH]; intros k; simpl; auto. rewrite IH, fold_left_app. f_equal. unfold handle_account. clear.
  generalize k. induction (as_results a) as [|r rs IH]; intros k0; simpl; auto.
Qed.
Lemma fold_ti es0 k0 es : TI es0 k0 -> TI (es0 ++ es) (fold_left account_entry es k0).
Proof. revert es0 k0. induction es as [|e es IH]; intros es0 k0 I; simpl; [now rewrite app_nil_r|]. specialize (IH _ _ (account_ti _ _ e I)). now rewrite <- app_assoc in IH. Qed.

(* ---- counts ---- *)

Section BTreeLemmas.
Context {K V : Type} (cmp : K -> K -> comparison).
Hypothesis cmp_eq : forall a b, cmp a b = Eq -> a = b.
Lemma bupdate_split k f (l : list (K * V)) :
  (exists l1 v l2, l = l1 ++ (k, v) :: l2 /\ bupdate cmp k f l = l1 ++ (k, f (Some v)) :: l2) \/
  (exists l1 l2, l = l1 ++ l2 /\ bupdate cmp k f l = l1 ++ (k, f None) :: l2).
Proof.
  induction l as [|[k' v] t IH]; simpl; [right; exists [], []; auto|]. destruct (cmp k k') eqn:E.
  - apply cmp_eq in E as <-. left. exists [], v, t. auto.
  - right. exists [], ((k', v) :: t). auto.
  - destruct IH as [(l1 & v' & l2 & -> & ->)|(l1 & l2 & -> & ->)]; [left; exists ((k', v) :: l1), v', l2; auto|right; exists ((k', v) :: l1), l2; auto].
Qed.
Definition blt (a b : K * V) : Prop := cmp (fst a) (fst b) = Lt.
Hypothesis cmp_opp : forall a b, cmp b a = CompOpp (cmp a b).
Hypothesis cmp_trans : forall a b c, cmp a b = Lt -> cmp b c = Lt -> cmp a c = Lt.
Lemma bupdate_in k f (l : list (K * V)) x : In x (bupdate cmp k f l) -> fst x = k \/ In x l.
Proof. destruct (bupdate_split k f l) as [(l1 & v & l2 & -> & ->)|(l1 & l2 & -> & ->)]; rewrite !in_app_iff; simpl; intros [H|[H|H]]; auto; left; now rewrite <- H. Qed.
Lemma bupdate_sorted k f (l : list (K * V)) : StronglySorted blt l -> StronglySorted blt (bupdate cmp k f l).
Proof.
  induction l as [|[k' v] t IH]; intros S0; simpl; [repeat constructor|]. inversion S0 as [|? ? S' F]; subst. destruct (cmp k k') eqn:E.
  - constructor; auto.
  - constructor; auto. constructor; auto. rewrite Forall_forall in *. intros y Y. unfold blt in *. simpl in *. apply cmp_trans with k'; auto.
  - constructor; auto. rewrite Forall_forall in *. intros y Y. apply bupdate_in in Y as [E'|Y]; auto.
    unfold blt. simpl. rewrite E', (cmp_opp k k'), E. reflexivity.
Qed.
End BTreeLemmas.

Lemma count_of_app f c1 c2 : count_of f (c1 ++ c2) = count_of f c1 + count_of f c2.
Proof. unfold count_of. now rewrite map_app, list_sum_app. Qed.
Lemma bump_count f g n c : count_of f (bump g n c) = count_of f c + (if Nat.eqb g f then n else 0).
Proof.
  unfold bump. destruct (bupdate_split Nat.compare (fun a b H => proj1 (Nat.compare_eq_iff a b) H) g (fun o => match o with Some m => m + n | None => n end) c)
    as [(l1 & v & l2 & -> & ->)|(l1 & l2 & -> & ->)]; rewrite !count_of_app; unfold count_of; simpl; destruct (Nat.eqb g f); simpl; lia.
Qed.
Lemma total_app sel who f l1 l2 : total sel who f (l1 ++ l2) = total sel who f l1 + total sel who f l2.
Proof. unfold total. now rewrite map_app, list_sum_app. Qed.
Lemma rcmp_eq a b : runner_cmp a b = Eq -> a = b.
Proof.
  destruct a as [w r], b as [w' r']. unfold runner_cmp, lex. simpl. destruct (Nat.compare w w') eqn:E; try discriminate. apply ncmp_eq in E as ->. intros H. apply ncmp_eq in H as ->. auto.
Qed.
Lemma rcmp_opp a b : runner_cmp b a = CompOpp (runner_cmp a b).
Proof. destruct a as [w r], b as [w' r']. unfold runner_cmp, lex. simpl. rewrite (Nat.compare_antisym w w'), (Nat.compare_antisym r r'). destruct (Nat.compare w w'); auto. Qed.
Lemma rcmp_trans a b c : runner_cmp a b = Lt -> runner_cmp b c = Lt -> runner_cmp a c = Lt.
Proof.
  destruct a as [w r], b as [w' r'], c as [w'' r'']. unfold runner_cmp, lex. simpl.
  destruct (Nat.compare_spec w w'), (Nat.compare_spec w' w''), (Nat.compare_spec w w''); subst; try discriminate; try lia; auto; rewrite ?Nat.compare_lt_iff; lia.
Qed.

Definition keyed (s : list ((nat * nat) * summary)) : Prop := Forall (fun e => fst e = u_runner (snd e)) s.
Definition fails_in (f : nat) (s : tstatus) : bool :=
  match ts_tag s, ts_file s with AlwaysFailed false, Some g => Nat.eqb g f | _, _ => false end.
Definition retried_in (f : nat) (s : tstatus) : bool :=
  match ts_file s with Some g => ts_retried s && Nat.eqb g f | _ => false end.

Lemma sum_step_keyed s t : keyed s -> keyed (sum_step s t).
Proof.
  intros K. unfold sum_step. match goal with |- keyed (bupdate _ _ ?g _) => set (upd_f := g) end.
  assert (U : forall o, (forall u, o = Some u -> u_runner u = ts_runner t) -> u_runner (upd_f o) = ts_runner t).
  { intros o H. unfold upd_f. destruct o as [u|]; [rewrite <- (H u eq_refl)|]; destruct (ts_tag t) as [|[|]| |], (ts_file t), (ts_retried t); reflexivity. }
  destruct (bupdate_split runner_cmp rcmp_eq (ts_runner t) upd_f s) as [(l1 & v & l2 & -> & ->)|(l1 & l2 & -> & ->)].
  - apply Forall_app in K as [K1 K2]. inversion K2 as [|? ? K3 K4]; subst. apply Forall_app. split; auto. constructor; auto. cbn [fst snd] in *. symmetry. apply U. intros u E. injection E as <-. auto.
  - apply Forall_app in K as [K1 K2]. apply Forall_app. split; auto. constructor; auto. cbn [fst snd]. symmetry. apply U. discriminate.
Qed.

Lemma sum_step_total s t who f : keyed s ->
  total u_failures who f (map snd (sum_step s t)) = total u_failures who f (map snd s) + (if who (ts_runner t) && fails_in f t then 1 else 0) /\
  total u_retries who f (map snd (sum_step s t)) = total u_retries who f (map snd s) + (if who (ts_runner t) && retried_in f t then 1 else 0).
Proof.
  intros K. unfold sum_step. match goal with |- context [bupdate _ _ ?g _] => set (upd_f := g) end.
  assert (U : forall o, (forall u, o = Some u -> u_runner u = ts_runner t) -> let u0 := match o with Some u => u | None => {| u_runner := ts_runner t; u_failures := []; u_retries := [] |} end in
    u_runner (upd_f o) = ts_runner t /\ count_of f (u_failures (upd_f o)) = count_of f (u_failures u0) + (if fails_in f t then 1 else 0) /\
    count_of f (u_retries (upd_f o)) = count_of f (u_retries u0) + (if retried_in f t then 1 else 0)).
  { intros o H. unfold upd_f, fails_in, retried_in. destruct o as [u|]; [rewrite <- (H u eq_refl)|]; destruct (ts_tag t) as [|[|]| |], (ts_file t), (ts_retried t); cbn [u_runner u_failures u_retries andb];
      rewrite ?bump_count; repeat split; auto; lia. }
  destruct (bupdate_split runner_cmp rcmp_eq (ts_runner t) upd_f s) as [(l1 & v & l2 & -> & ->)|(l1 & l2 & -> & ->)].
  - apply Forall_app in K as [K1 K2]. inversion K2 as [|? ? K3 K4]; subst. cbn [fst snd] in K3. destruct (U (Some v)) as (U1 & U2 & U3); [intros u E; injection E as <-; auto|].
    rewrite !map_app, !total_app. unfold total. cbn [map snd list_sum]. simpl. rewrite U1, <- K3, U2, U3. destruct (who (ts_runner t)); cbn [andb]; split; lia.
  - destruct (U None) as (U1 & U2 & U3); [discriminate|]. rewrite !map_app, !total_app. unfold total. simpl. rewrite U1, U2, U3. destruct (who (ts_runner t)); cbn [andb]; unfold count_of; simpl; split; lia.
Qed.

Lemma sum_total order who f :
  keyed (fold_left sum_step order []) /\
  total u_failures who f (map snd (fold_left sum_step order [])) = length (filter (fun t => who (ts_runner t) && fails_in f t) order) /\
  total u_retries who f (map snd (fold_left sum_step order [])) = length (filter (fun t => who (ts_runner t) && retried_in f t) order).
Proof.
  induction order as [|t order IH] using rev_ind; [repeat split; constructor|]. destruct IH as (K & I1 & I2). rewrite fold_left_app. cbn [fold_left].
  destruct (sum_step_total _ t who f K) as (S1 & S2). split; [now apply sum_step_keyed|]. rewrite S1, S2, I1, I2, !filter_app, !app_length. cbn [filter].
  destruct (who (ts_runner t) && fails_in f t), (who (ts_runner t) && retried_in f t); simpl; auto.
Qed.

Lemma sum_sorted order : StronglySorted (fun a b => runner_cmp (u_runner a) (u_runner b) = Lt) (map snd (fold_left sum_step order [])).
Proof.
  assert (K : keyed (fold_left sum_step order [])) by apply (sum_total order (fun _ => true) 0).
  assert (S0 : StronglySorted (blt runner_cmp) (fold_left sum_step order [])).
  { clear K. induction order as [|t order IH] using rev_ind; [constructor|]. rewrite fold_left_app. cbn [fold_left]. apply bupdate_sorted; auto using rcmp_eq, rcmp_opp. intros a b c. apply rcmp_trans. }
  induction S0 as [|x l S1 IH F]; simpl; [constructor|]. inversion K as [|? ? K1 K2]; subst. constructor; auto. rewrite Forall_forall in *. intros y Y.
  apply in_map_iff in Y as (z & <- & Z). specialize (F _ Z). unfold blt in F. rewrite <- K1, <- (K2 _ Z). exact F.
Qed.

Lemma union_count a b f : count_of f (u_failures (union a b)) = count_of f (u_failures a) + count_of f (u_failures b) /\
  count_of f (u_retries (union a b)) = count_of f (u_retries a) + count_of f (u_retries b).
Proof.
  assert (H : forall c d, count_of f (fold_left (fun c e => bump (fst e) (snd e) c) d c) = count_of f c + count_of f d).
  { intros c d. revert c. induction d as [|[g n] d IH]; intros c; simpl; [unfold count_of; simpl; lia|]. rewrite IH, bump_count. unfold count_of. simpl. lia. }
  unfold union. simpl. now rewrite !H.
Qed.

Lemma group_total g us key0 f :
  let who := fun r => Nat.eqb (grouping_key g r) key0 in
  Forall (fun e => fst e = grouping_key g (u_runner (snd e))) (fold_left (group_step g) us []) /\
  total u_failures who f (grouped g us) = total u_failures who f us /\ total u_retries who f (grouped g us) = total u_retries who f us.
Proof.
  intros who. unfold grouped. induction us as [|u us IH] using rev_ind; [repeat split; constructor|]. destruct IH as (K & I1 & I2). rewrite fold_left_app. cbn [fold_left].
  rewrite !total_app, <- I1, <- I2. clear I1 I2. generalize dependent (fold_left (group_step g) us []). intros m K. unfold group_step.
  set (upd_f := fun o => match o with Some e => union e u | None => u end).
  destruct (bupdate_split Nat.compare (fun a b H => proj1 (Nat.compare_eq_iff a b) H) (grouping_key g (u_runner u)) upd_f m) as [(l1 & v & l2 & -> & ->)|(l1 & l2 & -> & ->)].
  - apply Forall_app in K as [K1 K2]. inversion K2 as [|? ? K3 K4]; subst. cbn [fst snd] in K3. split.
    + apply Forall_app. split; auto.
    + rewrite !map_app, !total_app. unfold total, list_sum. change (upd_f (Some v)) with (union v u). cbn [map snd fold_right].
      change (u_runner (union v u)) with (u_runner v). destruct (union_count v u f) as [-> ->]. unfold who. rewrite <- K3. destruct (Nat.eqb (grouping_key g (u_runner u)) key0); lia.
  - apply Forall_app in K as [K1 K2]. split.
    + apply Forall_app. split; auto.
    + rewrite !map_app, !total_app. unfold total. simpl. lia.
Qed.
Lemma group_sorted g us : StronglySorted (fun a b => grouping_key g (u_runner a) < grouping_key g (u_runner b)) (grouped g us).
Proof.
  destruct (group_total g us 0 0) as (K & _ & _). unfold grouped.
  assert (S0 : StronglySorted (blt Nat.compare) (fold_left (group_step g) us [])).
  { clear K. induction us as [|t us IH] using rev_ind; [constructor|]. rewrite fold_left_app. cbn [fold_left]. apply bupdate_sorted; auto.
    - intros a b. apply Nat.compare_eq_iff.
    - intros a b. apply Nat.compare_antisym.
    - intros a b c. rewrite !Nat.compare_lt_iff. lia. }
  induction S0 as [|x l S1 IH F]; simpl; [constructor|]. inversion K as [|? ? K1 K2]; subst. constructor; auto. rewrite Forall_forall in *. intros y Y.
  apply in_map_iff in Y as (z & <- & Z). specialize (F _ Z). unfold blt in F. rewrite Nat.compare_lt_iff, K1, (K2 _ Z) in F. exact F.
Qed.

(* ---- listing tests ---- *)

Lemma insert_perm r l : Permutation (r :: l) (insert_by_time r l).
Proof. induction l as [|x t IH]; simpl; auto. destruct (_ || _); auto. rewrite perm_swap. now constructor. Qed.
Lemma insert_sorted r l : StronglySorted (fun a b => r_time a <= r_time b) l -> StronglySorted (fun a b => r_time a <= r_time b) (insert_by_time r l).
Proof.
  induction l as [|x t IH]; intros S0; simpl; [repeat constructor|]. inversion S0 as [|? ? S' F]; subst.
  destruct (Nat.ltb_spec (r_time x) (r_time r)), (Nat.eqb_spec (r_time x) (r_time r)); cbn [orb].
  - lia.
  - constructor; auto. rewrite Forall_forall in *. intros y Y. apply (Permutation_in _ (Permutation_sym (insert_perm r t))) in Y as [<-|Y]; auto. lia.
  - constructor; auto. rewrite Forall_forall in *. intros y Y. apply (Permutation_in _ (Permutation_sym (insert_perm r t))) in Y as [<-|Y]; auto. lia.
  - constructor; auto. constructor; [lia|]. rewrite Forall_forall in *. intros y Y. specialize (F _ Y). lia.
Qed.
Lemma sort_time_spec l : Permutation l (sort_by_time l) /\ StronglySorted (fun a b => r_time a <= r_time b) (sort_by_time l).
Proof.
  unfold sort_by_time. induction l as [|r l IH] using rev_ind; [split; constructor|]. rewrite fold_left_app. cbn [fold_left]. destruct IH as [P S0]. split.
  - rewrite <- insert_perm, <- P. symmetry. apply Permutation_cons_append.
  - now apply insert_sorted.
Qed.
(* equal times keep their order *)
Lemma insert_stable r l n : StronglySorted (fun a b => r_time a <= r_time b) l ->
  filter (fun x => Nat.eqb (r_time x) n) (insert_by_time r l) = filter (fun x => Nat.eqb (r_time x) n) l ++ (if Nat.eqb (r_time r) n then [r] else []).
Proof.
  induction l as [|x t IH]; intros S0; cbn [insert_by_time filter]; [destruct (Nat.eqb (r_time r) n); auto|]. inversion S0 as [|? ? S' F]; subst.
  destruct (Nat.ltb_spec (r_time x) (r_time r)), (Nat.eqb_spec (r_time x) (r_time r)); cbn [orb]; try lia.
  - cbn [filter]. rewrite IH by auto. destruct (Nat.eqb (r_time x) n); auto.
  - cbn [filter]. rewrite IH by auto. destruct (Nat.eqb (r_time x) n); auto.
  - cbn [filter]. destruct (Nat.eqb_spec (r_time r) n) as [RN|RN]; [subst n|now rewrite app_nil_r].
    destruct (Nat.eqb_spec (r_time x) (r_time r)); [lia|]. replace (filter (fun x0 => Nat.eqb (r_time x0) (r_time r)) t) with (@nil result); auto.
    symmetry. rewrite Forall_forall in F. assert (LT : r_time r < r_time x) by lia. clear -F LT. induction t as [|y t IH]; simpl; auto. destruct (Nat.eqb_spec (r_time y) (r_time r)) as [E|E].
    + specialize (F y (or_introl eq_refl)). lia.
    + apply IH. intros z Z. apply F. right; auto.
Qed.
Lemma sort_stable l n : filter (fun x => Nat.eqb (r_time x) n) (sort_by_time l) = filter (fun x => Nat.eqb (r_time x) n) l.
Proof.
  unfold sort_by_time. induction l as [|r l IH] using rev_ind; auto. rewrite fold_left_app. cbn [fold_left]. rewrite insert_stable by apply sort_time_spec.
  fold (sort_by_time l) in *. rewrite IH, filter_app. cbn [filter]. destruct (Nat.eqb (r_time r) n); auto.
Qed.

Lemma enum_count es k p : TI es k -> exists L, NoDup L /\ (forall t, In t L <-> exists s, status_of t es = Some s /\ p s = true) /\
  length (filter p (statuses k)) = length L + length (filter p (map (fun e => make_new (e_result e) (AlwaysFailed true)) (unreplaced es))).
Proof.
  intros I. destruct (test_statuses es k I) as (ts & N & H & P).
  exists (filter (fun t => match status_of t es with Some s => p s | None => false end) ts). split; [now apply NoDup_filter|]. split.
  - intros t. rewrite filter_In, H. unfold has_result. pose proof (status_none t es) as Q. destruct (status_of t es) as [s|].
    + split; [intros [_ B]; eauto|]. intros (s' & E & B). injection E as <-. split; auto. intros Z. apply Q in Z. discriminate.
    + split; [intros [_ B]; discriminate|]. intros (s' & E & _). discriminate.
  - rewrite (Permutation_length (filter_perm p _ _ P)), filter_app, app_length. f_equal. clear. induction ts as [|t ts IH]; simpl; auto.
    rewrite filter_app, app_length, IH. destruct (status_of t es) as [s|]; simpl; auto. destruct (p s); simpl; auto.
Qed.

Lemma reaches_ti es k : reaches es k -> TI es k.
Proof.
  induction 1 as [|es k e _ IH|es k o1 o2 _ IH P]; [apply ti_new|now apply account_ti|]. unfold suite_result.
  destruct (load_ti es k o1 IH P) as (L & _). destruct (load_metrics k o1). exact L.
Qed.

Lemma suite_spec es k o1 o2 k' s : reaches es k -> Permutation (statuses k) o1 -> Permutation (statuses k) o2 -> suite_result k o1 o2 = (k', s) ->
  s_exit s = m_exit (aggregate (statuses k)) /\ s_failed s = m_failed (aggregate (statuses k)) /\ s_retried s = m_retried (aggregate (statuses k)) /\
  s_count s = length (statuses k) /\ s_runners s = map snd (fold_left sum_step o2 []).
Proof.
  intros R P1 P2 E. unfold suite_result in E. destruct (load_ti es k o1 (reaches_ti _ _ R) P1) as (_ & L & _). destruct (load_metrics k o1) as [k0 m]. simpl in L. subst m.
  injection E as _ <-. cbn [s_exit s_failed s_retried s_count s_runners]. now rewrite (Permutation_length P2).
Qed.

Lemma exit_spec es k : TI es k ->
  (m_exit (aggregate (statuses k)) = ABQ_ERROR <-> unreplaced es <> []) /\
  (m_exit (aggregate (statuses k)) = FAILURE <-> unreplaced es = [] /\ exists t, taken_for_failed (attempts t es)) /\
  (m_exit (aggregate (statuses k)) = SUCCESS <-> unreplaced es = [] /\ forall t, ~ taken_for_failed (attempts t es)).
Proof.
  intros I. rewrite (exit_of es k I).
  assert (F : existsb is_failed (map snd (k_tests k)) = true <-> exists t, taken_for_failed (attempts t es)).
  { rewrite existsb_exists. split.
    - intros (s & IN & B). apply in_map_iff in IN as ([t s'] & <- & IN). apply (in_mget _ _ _ (ti_nodup _ _ I)) in IN. rewrite (ti_get _ _ I) in IN. unfold status_of in IN.
      destruct (first_result t es); [|discriminate]. injection IN as <-. unfold is_failed in B. cbn [snd ts_tag] in B. exists t. pose proof (tag_spec (attempts t es)) as T. destruct (tag_of (attempts t es)); try discriminate. tauto.
    - intros (t & T). assert (NE : first_result t es <> None).
      { intros Q. apply first_attempts in Q. rewrite Q in T. destruct T as (ps & fs & E & _). destruct ps; discriminate. }
      pose proof (ti_get _ _ I t) as G. unfold status_of in G. destruct (first_result t es) as [e|]; [|congruence].
      apply mget_in in G. eexists. split; [apply (in_map snd) in G; exact G|]. unfold is_failed. cbn [snd ts_tag]. apply tag_failed in T. now rewrite T. }
  assert (U : existsb (fun _ : entry => true) (unreplaced es) = true <-> unreplaced es <> []) by (destruct (unreplaced es); simpl; split; congruence).
  destruct (existsb (fun _ : entry => true) (unreplaced es)) eqn:E1.
  - assert (NE : unreplaced es <> []) by now apply U. repeat split; intros; try discriminate; auto; try tauto.
  - assert (EM : unreplaced es = []) by (destruct (unreplaced es); [auto|discriminate]).
    destruct (existsb is_failed (map snd (k_tests k))) eqn:E2.
    + assert (T : exists t, taken_for_failed (attempts t es)) by now apply F. split; [split; [discriminate|tauto]|]. split; [split; auto|]. split; [discriminate|]. intros [_ Q]. destruct T as [t T]. now apply Q in T.
    + assert (NT : forall t, ~ taken_for_failed (attempts t es)). { intros t T. assert (X : false = true) by (apply F; eauto). discriminate. }
      split; [split; [discriminate|tauto]|]. split; [split; [discriminate|]|split; auto]. intros [_ [t T]]. now apply NT in T.
Qed.

Lemma orderly_taken es t : orderly es -> (taken_for_failed (attempts t es) <-> always_failed t es).
Proof.
  intros O. destruct (O t) as [O1 O2]. unfold always_failed, has_result. split.
  - intros (ps & fs & E & P & F). assert (ps = []) as ->. { destruct ps as [|p ps]; auto. exfalso. apply (O2 (p :: ps) fs 1 E); [discriminate|auto|auto]. }
    simpl in E. rewrite E. split; [discriminate|]. constructor; auto. reflexivity.
  - intros [NE F]. destruct (attempts t es) as [|[n b] h] eqn:E; [congruence|]. inversion F as [|? ? F1 F2]; subst. unfold failed_attempt in F1. simpl in F1. subst b.
    rewrite (O1 n true h eq_refl eq_refl). exists [], h. auto.
Qed.

Lemma pushes_shown n b a rs : flat_map shown (pushes n b a rs) = rs.
Proof. revert b. induction rs as [|r [|r' rs] IH]; intros b; simpl; auto. f_equal. apply IH. Qed.
Lemma pushes_after n b a rs : flat_map shown_after (pushes n b a rs) = match rs with [] => [] | _ => of_option a end.
Proof. revert b. induction rs as [|r [|r' rs] IH]; intros b; simpl; auto; [destruct a; auto|]. apply IH. Qed.
Lemma pushes_nobefore n a rs : flat_map shown_before (pushes n None a rs) = [].
Proof. induction rs as [|r [|r' rs] IH]; simpl; auto. Qed.
Lemma pushes_before n b a rs : flat_map shown_before (pushes n b a rs) = match rs with [] => [] | _ => of_option b end.
Proof. destruct rs as [|r [|r' rs]]; auto; destruct b; simpl; auto; [f_equal|]; apply (pushes_nobefore n a (r' :: rs)). Qed.
