From Verif Require Import Base PoolModel PoolSpec.
From Coq Require Import ZArith.

(* ---- the pool's exit ---- *)

Section Pool.
Context {info : Type}.
Implicit Types (rs : list (runner_exit info)) (a : acc info).

Lemma loop_app a id rs r : pool_loop a id (rs ++ [r]) = pool_step (pool_loop a id rs) (id + length rs) r.
Proof.
  revert a id. induction rs as [|x rs IH]; intros a id; cbn [pool_loop app length].
  - now rewrite Nat.add_0_r.
  - rewrite IH. f_equal. lia.
Qed.

Lemma loop_errors a id rs : a_errors (pool_loop a id rs) = a_errors a ++ flat_map error_of rs.
Proof.
  induction rs as [|r rs IH] using rev_ind; [now rewrite app_nil_r|]. rewrite loop_app, flat_map_app. simpl. rewrite app_nil_r.
  destruct r; simpl; rewrite IH, ?app_nil_r, <- ?app_assoc; reflexivity.
Qed.
Lemma loop_final a id rs : a_final (pool_loop a id rs) = a_final a ++ combine (seq id (length rs)) (map final_of rs).
Proof.
  revert a id. induction rs as [|r rs IH]; intros a id; cbn [pool_loop length seq map combine]; [now rewrite app_nil_r|].
  rewrite IH. destruct r; cbn [pool_step a_final final_of]; rewrite <- app_assoc; reflexivity.
Qed.
Lemma combined_lines o : combined o = lines (so_out o) ++ lines (so_err o).
Proof. unfold combined, lines. now destruct (so_out o), (so_err o). Qed.
Lemma loop_process a id rs : a_process (pool_loop a id rs) = a_process a ++ combine (seq id (length rs)) (map process_of rs).
Proof.
  revert a id. induction rs as [|r rs IH]; intros a id; cbn [pool_loop length seq map combine]; [now rewrite app_nil_r|].
  rewrite IH. destruct r; cbn [pool_step a_process process_of]; rewrite <- app_assoc; try reflexivity. now rewrite combined_lines.
Qed.
Lemma loop_info a id rs : a_info (pool_loop a id rs) = fold_left or (map info_of rs) (a_info a).
Proof.
  revert a id. induction rs as [|r rs IH]; intros a id; cbn [pool_loop map fold_left]; auto. rewrite IH. now destruct r.
Qed.
Lemma fold_or_some (l : list (option info)) i : fold_left or l (Some i) = Some i.
Proof. induction l; simpl; auto. Qed.
Lemma fold_or_spec (l : list (option info)) : fold_left or l None =
  match filter (fun o => match o with Some _ => true | None => false end) l with o :: _ => o | [] => None end.
Proof. induction l as [|[i|] l IH]; simpl; auto. apply fold_or_some. Qed.

(* the code kept is the last one of a runner that did not err *)
Fixpoint last_code rs (d : Z) : Z := match rs with [] => d | ROk c _ _ _ _ :: rs' => last_code rs' c | RErr _ _ _ :: rs' => last_code rs' d end.
Lemma loop_code a id rs : a_code (pool_loop a id rs) = last_code rs (a_code a).
Proof.
  revert a id. induction rs as [|r rs IH]; intros a id; cbn [pool_loop last_code]; auto. rewrite IH. destruct r; cbn [pool_step a_code]; auto.
  now rewrite Z.max_id.
Qed.
Fixpoint last_manifest id rs (d : option (nat * text)) : option (nat * text) :=
  match rs with
  | [] => d
  | ROk _ m _ _ _ :: rs' => last_manifest (S id) rs' (match m with Some o => Some (id, o) | None => None end)
  | RErr _ _ _ :: rs' => last_manifest (S id) rs' d
  end.
Lemma loop_manifest a id rs : a_manifest (pool_loop a id rs) = last_manifest id rs (a_manifest a).
Proof.
  revert a id. induction rs as [|r rs IH]; intros a id; cbn [pool_loop last_manifest]; auto. rewrite IH. now destruct r.
Qed.

Lemma status_errored rs : (exists es, x_status (shutdown rs) = Errored es) <-> exists e o i, In (RErr e o i) rs.
Proof.
  unfold shutdown. cbn [x_status]. rewrite loop_errors. cbn [pool_init a_errors app]. split.
  - intros (es & E). destruct (flat_map error_of rs) as [|e es'] eqn:F; [discriminate|].
    assert (I : In e (flat_map error_of rs)) by (rewrite F; left; auto). apply in_flat_map in I as ([|e' o i] & I1 & I2); [destruct I2|]. eauto.
  - intros (e & o & i & I). destruct (flat_map error_of rs) as [|e' es'] eqn:F; [|eauto].
    assert (I' : In e (flat_map error_of rs)) by (apply in_flat_map; exists (RErr e o i); simpl; auto). rewrite F in I'. destruct I'.
Qed.

End Pool.

(* ---- liveness ---- *)

Definition is_signalled (h : holder) : bool := match h with Signalled => true | _ => false end.
Definition nsig (hs : list holder) : nat := length (filter is_signalled hs).

Lemma nsig_le hs : nsig hs <= length hs.
Proof. unfold nsig. induction hs as [|h hs IH]; simpl; auto. destruct (is_signalled h); simpl; lia. Qed.
Lemma nsig_holding hs i : nth_error hs i = Some Holding -> nsig hs < length hs.
Proof.
  revert i. induction hs as [|h hs IH]; intros [|i] H; simpl in H; try discriminate.
  - injection H as ->. unfold nsig. simpl. pose proof (nsig_le hs). unfold nsig in *. lia.
  - specialize (IH i H). unfold nsig in *. simpl. destruct (is_signalled h); simpl; lia.
Qed.
Lemma nsig_upd_sig hs i : nth_error hs i = Some Holding -> nsig (upd i Signalled hs) = S (nsig hs).
Proof.
  revert i. induction hs as [|h hs IH]; intros [|i] H; simpl in H; try discriminate.
  - injection H as ->. reflexivity.
  - unfold nsig in *. simpl. rewrite <- (app_nil_l (filter _ (upd _ _ _))). destruct (is_signalled h); simpl; rewrite IH; auto.
Qed.
Lemma nsig_upd_drop hs i : nth_error hs i = Some Holding -> nsig (upd i Dropped hs) = nsig hs.
Proof.
  revert i. induction hs as [|h hs IH]; intros [|i] H; simpl in H; try discriminate.
  - injection H as ->. reflexivity.
  - unfold nsig in *. simpl. destruct (is_signalled h); simpl; rewrite IH; auto.
Qed.
Lemma nsig_full hs : nsig hs = length hs <-> Forall (fun h => h = Signalled) hs.
Proof.
  unfold nsig. induction hs as [|h hs IH]; simpl; [split; auto|]. pose proof (nsig_le hs) as L. unfold nsig in L. destruct h; simpl; split; intros H.
  - exfalso; lia.
  - inversion H; discriminate.
  - injection H as H. constructor; auto. now apply IH.
  - inversion H; subst. f_equal. now apply IH.
  - exfalso; lia.
  - inversion H; discriminate.
Qed.

Record LInv (n : nat) (s : live) : Prop := {
  li_len : length (l_holders s) = n;
  li_proc : exists p, nsig (l_holders s) = l_queue s + p /\ l_count s = Z.of_nat (n - p) /\ p <= n /\
            match l_handler s with
            | HLoop => p < n /\ l_sent s = false
            | HSend => p = n /\ l_sent s = false
            | HSent => p = n /\ l_sent s = true
            | HDone => p = n /\ l_sent s = true
            | HPanic => p < n /\ l_sent s = false /\ l_queue s = 0 /\ senders s = false
            end;
  li_rx : l_rx s = false -> l_sent s = true;
  li_taken : l_rx s = true -> l_taken s = true -> l_handler s = HPanic;
  li_handle : l_handle s = false -> l_handler s = HDone /\ l_rx s = false;
  li_joined : l_handle s = true -> l_joined s = false;
  li_wait : In WaitReturned (l_waited s) -> l_handler s = HDone /\ l_handle s = false;
  li_panic : In WaitPanicked (l_waited s) -> l_handler s = HPanic
}.
Ltac lcbn := cbn [set_live set_wait l_holders l_queue l_count l_handler l_sent l_rx l_handle l_taken l_joined l_waited].

Lemma live_new_inv n : 1 <= n -> LInv n (live_new n).
Proof.
  intros N. constructor; cbn [live_new l_holders l_queue l_count l_handler l_sent l_rx l_handle l_taken l_joined l_waited]; try discriminate; auto.
  - apply repeat_length.
  - exists 0. split; [|split; [now rewrite Nat.sub_0_r|split; auto; lia]]. clear. induction n; auto.
  - intros [].
  - intros [].
Qed.

Lemma holding_senders s i : nth_error (l_holders s) i = Some Holding -> senders s = true.
Proof.
  intros H. unfold senders. apply orb_true_iff. right. apply existsb_exists. exists Holding. split; auto. eapply nth_error_In; eauto.
Qed.

Lemma drop_senders hs i : existsb is_holding hs = false -> existsb is_holding (upd i Dropped hs) = false.
Proof. revert i. induction hs as [|h hs IH]; intros [|i] H; simpl in *; auto; apply orb_false_iff in H as [H1 H2]; rewrite ?H1, ?H2; simpl; auto. Qed.

Lemma lstep_inv n s e : 1 <= n -> (Z.of_nat n < 2 ^ 64)%Z -> LInv n s -> LInv n (lstep s e).
Proof.
  intros N B I. destruct I as [I1 (p & P1 & P2 & P3 & P4) I3 I6 I4 I7 I5 I8]. destruct e as [i|i| | |]; cbn [lstep].
  - destruct (nth_error (l_holders s) i) as [[| |]|] eqn:H; try (constructor; eauto; fail).
    pose proof (nsig_holding _ _ H) as NH. pose proof (holding_senders _ _ H) as SS.
    destruct (l_handler s) eqn:HD; try (exfalso; lia).
    + destruct (Nat.ltb_spec (l_queue s) (length (l_holders s))) as [L|L]; [|lia].
      constructor; lcbn; rewrite ?HD; auto.
      * now rewrite upd_length.
      * destruct P4. exists p. rewrite nsig_upd_sig by auto. repeat split; auto; lia.
    + exfalso. destruct P4 as (_ & _ & _ & Q). congruence.
  - destruct (nth_error (l_holders s) i) as [[| |]|] eqn:H; try (constructor; eauto; fail).
    constructor; lcbn; auto.
    + now rewrite upd_length.
    + exists p. rewrite nsig_upd_drop by auto. repeat split; auto. pose proof (holding_senders _ _ H) as SS.
      destruct (l_handler s); auto. destruct P4 as (_ & _ & _ & Q). congruence.
  - constructor; lcbn; auto.
    exists p. repeat split; auto. destruct (l_handler s); auto. destruct P4 as (Q1 & Q2 & Q3 & Q4). repeat split; auto.
    unfold senders in *. cbn [set_live l_holders l_original]. apply orb_false_iff in Q4 as [_ Q4]. now rewrite Q4.
  - unfold handle.
    assert (NT : l_handler s <> HPanic -> l_rx s = true -> l_taken s = false).
    { intros X Y. destruct (l_taken s); auto. exfalso. apply X. auto. }
    assert (NH : l_handler s <> HDone -> l_handle s = true) by (intros X; destruct (l_handle s); auto; exfalso; apply X; apply I4; auto).
    assert (NW : l_handler s <> HDone -> ~ In WaitReturned (l_waited s)) by (intros X Y; apply X; apply I5; auto).
    assert (NP : l_handler s <> HPanic -> ~ In WaitPanicked (l_waited s)) by (intros X Y; apply X; auto).
    destruct (l_handler s) eqn:HD.
    + specialize (NT ltac:(discriminate)). specialize (NH ltac:(discriminate)). specialize (NW ltac:(discriminate)). specialize (NP ltac:(discriminate)).
      destruct P4 as [P4 P5]. assert (NR : l_rx s = true) by (destruct (l_rx s) eqn:Q; auto; specialize (I3 eq_refl); congruence).
      destruct (l_queue s) as [|q] eqn:Q.
      * destruct (senders s) eqn:SS.
        -- constructor; rewrite ?HD; auto; try congruence; try tauto. exists p. rewrite Q. auto.
        -- constructor; lcbn; try congruence; try tauto; auto.
           exists p. repeat split; auto.
      * constructor; lcbn; try congruence; try tauto; auto.
        -- exists (S p). assert (E : usize (l_count s - 1) = Z.of_nat (n - S p)).
           { unfold usize. rewrite P2, Z.mod_small; lia. }
           rewrite E. repeat split; auto; try lia. destruct (Z.eqb_spec (l_count s) 1); split; auto; lia.
        -- intros X Y. exfalso. rewrite (NT X) in Y. discriminate.
    + specialize (NT ltac:(discriminate)). specialize (NH ltac:(discriminate)). specialize (NW ltac:(discriminate)). specialize (NP ltac:(discriminate)).
      destruct P4 as [P4 P5]. constructor; lcbn; auto; try congruence; try tauto.
      * exists p. auto.
      * intros X Y. exfalso. rewrite (NT X) in Y. discriminate.
    + specialize (NT ltac:(discriminate)). specialize (NH ltac:(discriminate)). specialize (NW ltac:(discriminate)). specialize (NP ltac:(discriminate)).
      destruct P4 as [P4 P5]. constructor; lcbn; auto; try congruence; try tauto.
      * exists p. auto.
      * intros X Y. exfalso. rewrite (NT X) in Y. discriminate.
    + constructor; rewrite ?HD; auto. exists p. auto.
    + constructor; rewrite ?HD; auto. exists p. auto.
  - assert (J : forall rx taken, (l_sent s = true /\ rx = false) -> LInv n (join s rx taken)).
    { intros rx taken [ST ->]. unfold join. destruct (l_handle s) eqn:LH.
      - rewrite (I7 eq_refl). destruct (l_handler s) eqn:HD; try (destruct P4 as (? & ?); congruence).
        + constructor; lcbn; rewrite ?HD; auto; try discriminate; try congruence.
          * exists p; auto.
          * intros K. apply in_app_or in K as [K|[K|[]]]; [exfalso; destruct (I5 K); congruence|discriminate].
          * intros K. apply in_app_or in K as [K|[K|[]]]; [auto|discriminate].
        + constructor; lcbn; rewrite ?HD; auto; try discriminate; try congruence.
          * exists p; auto.
          * intros K. apply in_app_or in K as [K|[K|[]]]; [auto|discriminate].
        + destruct P4 as (_ & P4 & _). congruence.
      - destruct (I4 eq_refl) as [HD RX]. constructor; lcbn; rewrite ?HD in *; auto; try discriminate; try congruence.
        + exists p; auto.
        + intros K. apply in_app_or in K as [K|[K|[]]]; [auto|discriminate]. }
    unfold wait. destruct (l_rx s) eqn:RX.
    + destruct (l_taken s) eqn:TK.
      { pose proof (I6 eq_refl eq_refl) as HD. constructor; lcbn; rewrite ?HD in *; auto; try discriminate.
        - exists p; auto.
        - intros K. apply in_app_or in K as [K|[K|[]]]; [destruct (I5 K); congruence|discriminate]. }
      destruct (l_sent s) eqn:ST; [apply J; auto|].
      destruct (l_handler s) eqn:HD; try (destruct P4 as (? & ?); congruence);
        constructor; lcbn; rewrite ?HD; auto; try discriminate; try congruence;
        try (exists p; rewrite ?ST; auto; fail); try (intros LH; destruct (I4 LH); congruence);
        try (intros K; apply in_app_or in K as [K|[K|[]]]; [try (destruct (I5 K); congruence); auto|try discriminate; auto]).
    + apply J. auto.
Qed.

Lemma live_inv n es : 1 <= n -> (Z.of_nat n < 2 ^ 64)%Z -> LInv n (run lstep (live_new n) es).
Proof. intros N B. apply run_invariant; [intros; now apply lstep_inv|now apply live_new_inv]. Qed.

(* once all have signalled, the handler gets to its end *)
Lemma handler_finishes n k : forall s, 1 <= n -> (Z.of_nat n < 2 ^ 64)%Z -> LInv n s -> nsig (l_holders s) = n -> l_handler s = HLoop -> l_queue s = k ->
  exists s', run lstep s (repeat Handle k) = s' /\ LInv n s' /\ l_handler s' = HSend.
Proof.
  induction k as [|k IH]; intros s N B I AS HD Q.
  - exfalso. destruct I as [I1 (p & P1 & P2 & P3 & P4) _ _ _ _ _ _]. rewrite HD in P4. lia.
  - pose proof (lstep_inv n s Handle N B I) as I'. simpl. assert (E : l_holders (handle s) = l_holders s /\ l_queue (handle s) = k /\
      (l_handler (handle s) = if Z.eqb (l_count s) 1 then HSend else HLoop)).
    { unfold handle. rewrite HD, Q. auto. }
    destruct E as (E1 & E2 & E3). simpl in I'. destruct (Z.eqb_spec (l_count s) 1) as [C|C].
    + destruct k as [|k].
      * simpl. eauto.
      * exfalso. destruct I' as [_ (p & P1 & P2 & P3 & P4) _ _ _ _ _ _]. rewrite E3, E1, AS, E2 in *. lia.
    + apply IH; auto. now rewrite E1.
Qed.

Lemma done_waits n s0 : 1 <= n -> (Z.of_nat n < 2 ^ 64)%Z -> LInv n s0 -> l_handler s0 = HDone -> exists ws, l_waited (lstep s0 Wait) = ws ++ [WaitReturned].
Proof.
  intros N B [I1 (p & P1 & P2 & P3 & P4) I3 I6 I4 I7 I5 I8] HD. rewrite HD in *. destruct P4 as [_ ST].
  cbn [lstep]. unfold wait, join. rewrite HD, ST.
  destruct (l_rx s0); [destruct (l_taken s0); [discriminate (I6 eq_refl eq_refl)|]|];
    (destruct (l_handle s0); [rewrite (I7 eq_refl)|]; eexists; reflexivity).
Qed.
Lemma all_signalled_wait n es : 1 <= n -> (Z.of_nat n < 2 ^ 64)%Z ->
  Forall (fun h => h = Signalled) (l_holders (run lstep (live_new n) es)) ->
  exists k, forall m, k <= m -> exists ws, l_waited (run lstep (run lstep (live_new n) es) (repeat Handle m ++ [Wait])) = ws ++ [WaitReturned].
Proof.
  intros N B AS. pose proof (live_inv n es N B) as I. set (s := run lstep (live_new n) es) in *. clearbody s.
  apply nsig_full in AS. rewrite (li_len _ _ I) in AS.
  assert (DN : forall s0, LInv n s0 -> l_handler s0 = HDone -> forall m, exists ws, l_waited (run lstep s0 (repeat Handle m ++ [Wait])) = ws ++ [WaitReturned]).
  { intros s0 I0 H0 m. assert (E : run lstep s0 (repeat Handle m) = s0).
    { clear -H0. induction m; simpl; auto. unfold handle at 1. rewrite H0. auto. }
    rewrite run_app, E. now apply (done_waits n). }
  assert (SN : forall s0, LInv n s0 -> l_handler s0 = HSent -> forall m, 1 <= m -> exists ws, l_waited (run lstep s0 (repeat Handle m ++ [Wait])) = ws ++ [WaitReturned]).
  { intros s0 I0 H0 m M. destruct m as [|m]; [lia|]. pose proof (lstep_inv n s0 Handle N B I0) as I1. simpl in *. apply DN; auto. unfold handle. rewrite H0; reflexivity. }
  assert (SE : forall s0, LInv n s0 -> l_handler s0 = HSend -> forall m, 2 <= m -> exists ws, l_waited (run lstep s0 (repeat Handle m ++ [Wait])) = ws ++ [WaitReturned]).
  { intros s0 I0 H0 m M. destruct m as [|m]; [lia|]. pose proof (lstep_inv n s0 Handle N B I0) as I1. simpl in *. apply SN; auto; [|lia]. unfold handle. rewrite H0; reflexivity. }
  destruct (l_handler s) eqn:HD.
  - destruct (handler_finishes n (l_queue s) s N B I AS HD eq_refl) as (s' & E & I' & H').
    exists (l_queue s + 2). intros m M. replace m with (l_queue s + (m - l_queue s)) by lia. rewrite repeat_app, <- app_assoc, run_app, E. apply SE; auto. lia.
  - exists 2. intros m M. now apply SE.
  - exists 1. intros m M. now apply SN.
  - exists 0. intros m _. now apply DN.
  - exfalso. destruct I as [I1 (p & P1 & P2 & P3 & P4) _ _ _ _ _ _]. rewrite HD in P4. lia.
Qed.

Lemma dropped_step i : forall s e, nth_error (l_holders s) i = Some Dropped -> nth_error (l_holders (lstep s e)) i = Some Dropped.
Proof.
  intros s e H. destruct e as [j|j| | |]; cbn [lstep]; auto.
  - destruct (nth_error (l_holders s) j) as [[| |]|] eqn:J; auto. assert (NE : j <> i) by (intros ->; congruence).
    destruct (l_handler s); [destruct (Nat.ltb _ _)| | | |]; cbn [set_live l_holders]; auto; rewrite nth_error_upd_neq; auto.
  - destruct (nth_error (l_holders s) j) as [[| |]|] eqn:J; auto. assert (NE : j <> i) by (intros ->; congruence).
    cbn [set_live l_holders]. rewrite nth_error_upd_neq; auto.
  - unfold handle. destruct (l_handler s); auto. destruct (l_queue s); auto. destruct (senders s); auto.
  - unfold wait, join. destruct (l_rx s), (l_taken s), (l_sent s), (l_handler s), (l_handle s), (l_joined s); exact H.
Qed.
Lemma dropped_stays es s i : nth_error (l_holders s) i = Some Dropped -> nth_error (l_holders (run lstep s es)) i = Some Dropped.
Proof. intros H. apply (run_invariant lstep (fun s => nth_error (l_holders s) i = Some Dropped)); auto. intros; now apply dropped_step. Qed.
Lemma waited_kept x s e : In x (l_waited s) -> In x (l_waited (lstep s e)).
Proof.
  intros H. destruct e as [j|j| | |]; cbn [lstep]; auto.
  - destruct (nth_error (l_holders s) j) as [[| |]|]; auto. destruct (l_handler s); [destruct (Nat.ltb _ _)| | | |]; exact H.
  - destruct (nth_error (l_holders s) j) as [[| |]|]; auto.
  - unfold handle. destruct (l_handler s); auto. destruct (l_queue s); auto. destruct (senders s); auto.
  - unfold wait, join. destruct (l_rx s), (l_taken s), (l_sent s), (l_handler s), (l_handle s), (l_joined s); lcbn; apply in_or_app; auto.
Qed.
