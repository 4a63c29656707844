(* Lemmas about the locks of a queue. *)
From Verif Require Import Base LocksModel LocksSpec.
From Coq Require Import Lia.

Lemma lock_eqb_eq a b : lock_eqb a b = true <-> a = b.
Proof.
  destruct a, b; cbn [lock_eqb]; rewrite ?Nat.eqb_eq; split; intro H; try discriminate; try reflexivity; try congruence.
Qed.
Lemma lock_eqb_refl a : lock_eqb a a = true.
Proof. apply lock_eqb_eq. reflexivity. Qed.
Lemma lock_eqb_neq a b : lock_eqb a b = false <-> a <> b.
Proof. rewrite <- not_true_iff_false, lock_eqb_eq. reflexivity. Qed.

(* ---- the discipline ---- *)

Definition rank (l : lock) : nat :=
  match l with
  | Runs | Timeouts => 0 | RunOf _ => 1 | Conns _ | Active _ | Seen _ => 2
  | Cache => 3 | ResultsFile _ => 4 | ManifestFile _ => 5 | Pool => 0
  end.
Definition ok_acq (hs : list (lock * mode)) (l : lock) (m : mode) : bool :=
  if lock_eqb l Pool then negb (is_exclusive m) && forallb (fun h => negb (lock_eqb (fst h) Pool)) hs
  else forallb (fun h => lock_eqb (fst h) Pool || (Nat.ltb (rank (fst h)) (rank l) && (negb (of_files l) || of_files (fst h)))) hs.
Definition ok_wait (hs : list (lock * mode)) (w : peer) : bool :=
  match w with Clock => true | _ => forallb (fun h => of_files (fst h)) hs end.
Fixpoint chk (hs : list (lock * mode)) (ops : list op) : option (list (lock * mode)) :=
  match ops with
  | [] => Some hs
  | Acq l m :: ops' => if ok_acq hs l m then chk ((l, m) :: hs) ops' else None
  | Rel l :: ops' => if existsb (fun h => lock_eqb (fst h) l) hs then chk (release l hs) ops' else None
  | Wait w :: ops' => if ok_wait hs w then chk hs ops' else None
  end.

Lemma chk_app a : forall hs b, chk hs (a ++ b) = match chk hs a with Some hs' => chk hs' b | None => None end.
Proof.
  induction a as [|o a IH]; intros hs b; [reflexivity|]. cbn [app chk]. destruct o as [l m|l|w].
  - destruct (ok_acq hs l m); [apply IH|reflexivity].
  - destruct (existsb _ hs); [apply IH|reflexivity].
  - destruct (ok_wait hs w); [apply IH|reflexivity].
Qed.
Lemma chk_then hs a b hs' : chk hs a = Some hs' -> chk hs (a ++ b) = chk hs' b.
Proof. intro H. rewrite chk_app, H. reflexivity. Qed.
Lemma chk_repeat hs a n : chk hs a = Some hs -> chk hs (concat (repeat a n)) = Some hs.
Proof. intro H. induction n as [|n IH]; [reflexivity|]. cbn [repeat concat]. rewrite (chk_then _ _ _ _ H). exact IH. Qed.
Lemma chk_each {A} (f : A -> list op) hs l : (forall a, chk hs (f a) = Some hs) -> chk hs (concat (map f l)) = Some hs.
Proof. intro H. induction l as [|a l IH]; [reflexivity|]. cbn [map concat]. rewrite (chk_then _ _ _ _ (H a)). exact IH. Qed.

Ltac cc := repeat first [progress cbn [app chk ok_acq ok_wait lock_eqb rank of_files existsb forallb fst snd negb is_exclusive andb orb release Nat.ltb Nat.leb]
                        | rewrite Nat.eqb_refl | rewrite app_nil_r]; try reflexivity.

(* a part of a request that can be done whatever is held of the files *)
Definition files_held (hs : list (lock * mode)) : Prop := forallb (fun h => of_files (fst h)) hs = true.
Lemma files_no_pool hs : files_held hs -> forallb (fun h => negb (lock_eqb (fst h) Pool)) hs = true.
Proof.
  unfold files_held. rewrite !forallb_forall. intros H x X. specialize (H x X). destruct (fst x); cbn in *; congruence.
Qed.
Lemma chk_disk hs : files_held hs -> chk hs disk = Some hs.
Proof.
  intro F. unfold disk, take. cbn [chk]. unfold ok_acq. cbn [lock_eqb is_exclusive negb andb]. rewrite (files_no_pool _ F).
  cbn [existsb fst lock_eqb orb release]. reflexivity.
Qed.
Lemma chk_peer hs w : files_held hs -> chk hs [Wait w] = Some hs.
Proof. intro F. cbn [chk]. unfold ok_wait. destruct w; try (unfold files_held in F; rewrite F); reflexivity. Qed.
Lemma chk_with_run r m f body : (forall f, chk [(RunOf r, m); (Runs, Shared)] (body f) = Some [(RunOf r, m); (Runs, Shared)]) -> chk [] (with_run r m f body) = Some [].
Proof.
  intro H. destruct f; cbn [with_run]; cc; rewrite chk_app, H; cc.
Qed.
Lemma chk_lookup r f : chk [] (lookup r f) = Some [].
Proof. apply chk_with_run. intros []; unfold take; cc. Qed.
Lemma chk_take l m : (l = Pool -> m = Shared) -> chk [] (take l m) = Some [].
Proof.
  intro H. unfold take. cbn [chk]. unfold ok_acq. destruct (lock_eqb l Pool) eqn:E.
  - apply lock_eqb_eq in E. subst l. rewrite (H eq_refl). reflexivity.
  - cbn [forallb existsb fst release]. rewrite lock_eqb_refl. reflexivity.
Qed.
Lemma chk_change r f : chk [] (change_run r f) = Some [].
Proof. apply chk_with_run. intro; reflexivity. Qed.
Lemma chk_find r c : chk [] (find_or_create r c) = Some [].
Proof.
  unfold find_or_create. rewrite chk_app. rewrite (chk_take Runs Shared) by discriminate.
  destruct c as [f| | |f]; [apply chk_lookup|reflexivity|reflexivity|]. transitivity (chk [] (lookup r f)); [reflexivity|apply chk_lookup].
Qed.
Lemma chk_assigned r c : chk [] (get_assigned_run r c) = Some [].
Proof. unfold get_assigned_run. rewrite chk_app, chk_find. destruct c; reflexivity. Qed.
Lemma chk_init r f known : chk [] (init_metadata r f known) = Some [].
Proof. apply chk_with_run. intros []; try reflexivity. unfold take. cc. destruct known; cc. Qed.
Lemma chk_next r f last f' : chk [] (next_work r f last f') = Some [].
Proof.
  unfold next_work. rewrite chk_app, chk_with_run; [|intros []; unfold take; cc].
  destruct f; try reflexivity. destruct last; [apply chk_change|reflexivity].
Qed.
Lemma chk_write_cell r f : chk [] (write_cell r f) = Some [].
Proof. apply chk_with_run. intro; reflexivity. Qed.
Lemma chk_read_cell r f : chk [] (read_cell r f) = Some [].
Proof. apply chk_with_run. intros []; unfold take; cc. Qed.
Lemma chk_retry r f p : chk [] (retry_manifest r f p) = Some [].
Proof. apply chk_with_run. intros []; try reflexivity; unfold take; try destruct p; cc. Qed.
Lemma chk_complete r f : chk [] (worker_complete r f) = Some [].
Proof. apply chk_with_run. intros []; unfold take; cc. Qed.
Lemma chk_cancelled r f : chk [] (mark_cancelled r f) = Some [].
Proof. apply chk_with_run. intros []; unfold take; cc. Qed.
Lemma chk_status r f : chk [] (run_status r f) = Some [].
Proof. apply chk_with_run. intros []; unfold take; cc. Qed.
Lemma chk_progress r k s : chk [] (check_progress r k s) = Some [].
Proof. unfold check_progress, take. destruct k, s; cc. Qed.

Definition in_file (r : nat) : list (lock * mode) := [(ResultsFile r, Exclusive); (Cache, Shared)].
Lemma chk_remote hs ok next : files_held hs -> chk hs next = Some hs -> chk hs (remote ok next) = Some hs.
Proof.
  intros F N. unfold remote. change (Wait Remote :: (if ok then next else [])) with ([Wait Remote] ++ if ok then next else []).
  rewrite (chk_then _ _ _ _ (chk_peer _ _ F)). destruct ok; [exact N|reflexivity].
Qed.
Lemma files_in_file r : files_held (in_file r).
Proof. reflexivity. Qed.
Lemma chk_fast r c body : chk (in_file r) body = Some (in_file r) -> chk [] (fast_path r c body) = Some [].
Proof.
  intro B. unfold fast_path. destruct c as [| |ok].
  - reflexivity.
  - cc. fold (in_file r). rewrite <- !app_assoc. rewrite (chk_then _ _ _ _ B). unfold in_file. cc.
  - cc. fold (in_file r). rewrite <- !app_assoc.
    rewrite (chk_then (in_file r) (remote ok (disk ++ body)) _ (in_file r)).
    + unfold in_file. cc.
    + apply chk_remote; [reflexivity|]. rewrite (chk_then _ _ _ _ (chk_disk _ (files_in_file r))). exact B.
Qed.
Lemma chk_with_file r c raced c' body : chk (in_file r) body = Some (in_file r) -> chk [] (with_file r c raced c' body) = Some [].
Proof.
  intro B. unfold with_file. rewrite (chk_then _ _ _ _ (chk_fast _ _ _ B)). destruct c; try reflexivity.
  destruct raced; rewrite !chk_app; cc; apply chk_fast, B.
Qed.
Lemma chk_look r k body : chk (in_file r) body = Some (in_file r) -> chk [] (with_look r k body) = Some [].
Proof. destruct k as ((c, raced), c'). apply chk_with_file. Qed.
Lemma chk_dump_body r : chk (in_file r) dump_body = Some (in_file r).
Proof. reflexivity. Qed.
Lemma chk_dump_remote r : chk (in_file r) dump_remote_body = Some (in_file r).
Proof. reflexivity. Qed.
Lemma chk_stream r n : chk (in_file r) (stream_body n) = Some (in_file r).
Proof.
  unfold stream_body. rewrite !(chk_then (in_file r) disk _ (in_file r)) by reflexivity.
  rewrite (chk_then (in_file r) [Wait Client] _ (in_file r)) by reflexivity. apply chk_repeat. reflexivity.
Qed.
Lemma chk_plan r k k' : chk [] (execute_plan r k k') = Some [].
Proof.
  unfold execute_plan. rewrite (chk_then _ _ _ _ (chk_look _ k _ (chk_dump_body r))).
  destruct k' as [k'|]; [apply chk_look, chk_dump_remote|reflexivity].
Qed.
Lemma chk_offload r how : chk [] (offload_results r how) = Some [].
Proof. unfold offload_results, disk, take, remote. destruct how; cc. Qed.
Lemma chk_fetch r how : chk [] (fetch_manifest r how) = Some [].
Proof. unfold fetch_manifest, lock_manifest, disk_and_unlock, disk, take. destruct how as [|[]]; cc. Qed.
Lemma chk_dump_manifest r : chk [] (dump_manifest r) = Some [].
Proof. unfold dump_manifest, lock_manifest, disk, take. cc. Qed.
Lemma chk_offload_manifest r e : chk [] (offload_manifest r e) = Some [].
Proof. unfold offload_manifest, lock_manifest, disk_and_unlock, disk, take. destruct e; cc. Qed.

(* what is held, without repetition *)
Lemma release_in l hs x : In x (map fst (release l hs)) -> In x (map fst hs).
Proof. induction hs as [|h hs IH]; [intros []|]. cbn [release]. destruct (lock_eqb (fst h) l); [cbn; auto|]. intros [X|X]; [left; exact X|right; auto]. Qed.
Lemma release_in' l hs h : In h (release l hs) -> In h hs.
Proof. induction hs as [|h0 hs IH]; [intros []|]. cbn [release]. destruct (lock_eqb (fst h0) l); [cbn; auto|]. intros [X|X]; [left; exact X|right; auto]. Qed.
Lemma release_nodup l hs : NoDup (map fst hs) -> NoDup (map fst (release l hs)).
Proof.
  induction hs as [|h hs IH]; [intro; exact H|]. cbn [map]. intro N. inversion N as [|? ? N1 N2]; subst. cbn [release].
  destruct (lock_eqb (fst h) l); [exact N2|]. cbn [map]. constructor; [|exact (IH N2)]. intro X. apply N1. eapply release_in, X.
Qed.
Lemma ok_acq_fresh hs l m : ok_acq hs l m = true -> ~ In l (map fst hs).
Proof.
  unfold ok_acq. destruct (lock_eqb l Pool) eqn:E.
  - apply lock_eqb_eq in E. subst l. rewrite andb_true_iff, forallb_forall. intros (_ & F) X. apply in_map_iff in X.
    destruct X as (h & E & X). specialize (F h X). rewrite E in F. discriminate.
  - rewrite forallb_forall. intros F X. apply in_map_iff in X. destruct X as (h & E2 & X). specialize (F h X).
    rewrite E2, E in F. cbn in F. apply andb_true_iff in F. destruct F as (F & _). apply Nat.ltb_lt in F. lia.
Qed.
Lemma release_filter l hs : NoDup (map fst hs) -> map fst (release l hs) = filter (fun h => negb (lock_eqb h l)) (map fst hs).
Proof.
  induction hs as [|h hs IH]; [reflexivity|]. cbn [map]. intro N. inversion N as [|? ? N1 N2]; subst. cbn [release filter].
  destruct (lock_eqb (fst h) l) eqn:E.
  - cbn [negb]. apply lock_eqb_eq in E. rewrite E in N1. clear -N1. induction hs as [|h' hs IH]; [reflexivity|].
    cbn [map filter]. cbn in N1. destruct (lock_eqb (fst h') l) eqn:E; [apply lock_eqb_eq in E; tauto|]. cbn [negb]. f_equal. apply IH. tauto.
  - cbn [negb map]. f_equal. apply IH, N2.
Qed.
Lemma holding_chk p : forall hs hs', NoDup (map fst hs) -> chk hs p = Some hs' -> holding (map fst hs) p = map fst hs'.
Proof.
  induction p as [|o p IH]; intros hs hs' N H; [injection H as <-; reflexivity|]. cbn [chk holding] in *. destruct o as [l m|l|w].
  - destruct (ok_acq hs l m) eqn:E; [|discriminate]. apply (IH ((l, m) :: hs) hs'); [|exact H]. cbn. constructor; [eapply ok_acq_fresh, E|exact N].
  - destruct (existsb _ hs); [|discriminate]. rewrite <- release_filter by exact N. apply IH; [apply release_nodup, N|exact H].
  - destruct (ok_wait hs w); [|discriminate]. apply IH; assumption.
Qed.

Lemma request_chk p : request p -> chk [] p = Some [].
Proof.
  assert (T : chk [] talk = Some []) by reflexivity.
  induction 1; rewrite ?(chk_then _ _ _ _ T).
  - reflexivity.
  - rewrite (chk_then _ _ _ _ (chk_assigned r c)). reflexivity.
  - apply chk_cancelled.
  - rewrite (chk_then _ _ _ _ (chk_change r f)). destruct plan as [(k, k')|]; [apply chk_plan|reflexivity].
  - rewrite (chk_then _ _ _ _ (chk_write_cell r f)), (chk_then _ _ _ _ T). destruct plan as [(k, k')|]; [apply chk_plan|reflexivity].
  - apply chk_complete.
  - rewrite (chk_then _ _ _ _ (chk_read_cell r f)). reflexivity.
  - rewrite (chk_then _ _ _ _ (chk_read_cell r Done)). apply chk_look, chk_stream.
  - rewrite (chk_then _ _ _ _ (chk_status r f)). reflexivity.
  - rewrite (chk_then _ _ _ _ (chk_init r f known)). reflexivity.
  - rewrite (chk_then [] (concat (map (give_batch r) bs)) _ []).
    + destruct persist; [|reflexivity]. rewrite (chk_then _ _ _ _ (chk_dump_manifest r)). reflexivity.
    + apply chk_each. intros ((f, last), f'). unfold give_batch. rewrite (chk_then _ _ _ _ T), (chk_then _ _ _ _ (chk_next r f last f')). reflexivity.
  - rewrite (chk_then _ _ _ _ (chk_retry r f persisted)). reflexivity.
  - rewrite (chk_then _ _ _ _ (chk_retry r Done true)), (chk_then _ _ _ _ (chk_fetch r how)). reflexivity.
  - rewrite (chk_then _ _ _ _ (chk_progress r known stalled)). destruct again; reflexivity.
  - apply chk_repeat. reflexivity.
  - rewrite (chk_then [] disk _ []) by reflexivity. apply chk_each. intro a. apply chk_offload.
  - rewrite (chk_then [] disk _ []) by reflexivity. apply chk_each. intro a. apply chk_offload_manifest.
  - rewrite chk_app in *. destruct (chk [] p) as [hs|] eqn:E; [|discriminate].
    pose proof (holding_chk p [] hs (NoDup_nil _) E) as X. cbn [map] in X. rewrite H0 in X. destruct hs; [|discriminate].
    destruct w; reflexivity.
Qed.

(* ---- the machine ---- *)

Lemma split_at {A} i (l : list A) x : nth_error l i = Some x -> exists a b, l = a ++ x :: b /\ length a = i /\ forall y, upd i y l = a ++ y :: b.
Proof.
  revert l. induction i as [|i IH]; intros [|h l] H; try discriminate.
  - injection H as ->. exists [], l. auto.
  - destruct (IH l H) as (a & b & E & L & U). exists (h :: a), b. split; [cbn; f_equal; exact E|]. split; [cbn; lia|]. intro y. cbn [upd app]. f_equal. apply U.
Qed.

Definition mine (l : lock) (t : thread) : list mode := map snd (filter (fun h => lock_eqb (fst h) l) (held t)).
Lemma holders_split a t b q l : holders {| threads := a ++ t :: b; queue := q |} l = flat_map (mine l) a ++ mine l t ++ flat_map (mine l) b.
Proof. unfold holders. cbn [threads]. rewrite flat_map_app. reflexivity. Qed.
Lemma mine_cons l l' m h ops : mine l {| todo := ops; held := (l', m) :: h |} = (if lock_eqb l' l then [m] else []) ++ mine l {| todo := ops; held := h |}.
Proof. unfold mine. cbn [held filter fst]. destruct (lock_eqb l' l); reflexivity. Qed.
Lemma mine_held l t t' : held t = held t' -> mine l t = mine l t'.
Proof. intro E. unfold mine. rewrite E. reflexivity. Qed.
Lemma mine_release l l' h ops : incl (mine l {| todo := ops; held := release l' h |}) (mine l {| todo := ops; held := h |}) /\
  length (mine l {| todo := ops; held := release l' h |}) <= length (mine l {| todo := ops; held := h |}).
Proof.
  unfold mine. cbn [held]. induction h as [|x h (I1 & I2)]; [split; [intros y Y; exact Y|auto]|]. cbn [release].
  destruct (lock_eqb (fst x) l').
  - cbn [filter]. destruct (lock_eqb (fst x) l); [|split; [apply incl_refl|auto]]. cbn [map length]. split; [apply incl_tl, incl_refl|lia].
  - cbn [filter]. destruct (lock_eqb (fst x) l); [|auto]. cbn [map length]. split; [|lia]. intros y [Y|Y]; [left; exact Y|right; auto].
Qed.

(* the steps, one by one *)
Inductive stepped (pool : nat) (st st' : state) (i : nat) : Prop :=
| did_ask a b l m ops h : threads st = a ++ {| todo := Acq l m :: ops; held := h |} :: b -> length a = i -> waits st i = false ->
    st' = {| threads := threads st; queue := queue st ++ [i] |} -> stepped pool st st' i
| did_get a b l m ops h : threads st = a ++ {| todo := Acq l m :: ops; held := h |} :: b -> length a = i -> waits st i = true ->
    grantable pool st l m = true ->
    st' = {| threads := a ++ {| todo := ops; held := (l, m) :: h |} :: b; queue := filter (fun j => negb (Nat.eqb i j)) (queue st) |} -> stepped pool st st' i
| did_release a b l ops h : threads st = a ++ {| todo := Rel l :: ops; held := h |} :: b -> length a = i ->
    st' = {| threads := a ++ {| todo := ops; held := release l h |} :: b; queue := queue st |} -> stepped pool st st' i
| did_wait a b w ops h : threads st = a ++ {| todo := Wait w :: ops; held := h |} :: b -> length a = i ->
    st' = {| threads := a ++ {| todo := ops; held := h |} :: b; queue := queue st |} -> stepped pool st st' i.

Lemma step_stepped pool pass st i st' : step pool pass st i = Some st' -> stepped pool st st' i.
Proof.
  unfold step. destruct (nth_error (threads st) i) as [t|] eqn:E; [|discriminate].
  destruct (split_at _ _ _ E) as (a & b & T & L & U). destruct t as [[|[l m|l|w] ops] h]; cbn [todo held]; [discriminate| | |].
  - destruct (waits st i) eqn:W.
    + destruct (grantable pool st l m) eqn:G; [|discriminate]. destruct (is_first st l i || pass st i); [|discriminate]. cbn [andb].
      intro H. injection H as <-. rewrite U. eapply did_get; eauto.
    + intro H. injection H as <-. eapply did_ask; eauto.
  - intro H. injection H as <-. rewrite U. eapply did_release; eauto.
  - intro H. injection H as <-. rewrite U. eapply did_wait; eauto.
Qed.

Lemma turns_inv pool pass stalled (P : state -> Prop) sched : (forall st st' i, stepped pool st st' i -> P st -> P st') ->
  forall st, P st -> P (take_turns pool pass stalled st sched).
Proof.
  intro S'. unfold take_turns. induction sched as [|i sched IH]; intros st H; [exact H|]. cbn [fold_left]. apply IH.
  destruct (step_if pool pass stalled st i) as [st'|] eqn:E; [|exact H]. unfold step_if in E.
  destruct (stalled i && at_peer_b st i); [discriminate|]. eapply S'; [eapply step_stepped, E|exact H].
Qed.

(* who has a lock exclusively is the only one *)
Definition excl (st : state) : Prop := forall l, In Exclusive (holders st l) -> holders st l = [Exclusive].
Lemma excl_start progs : excl (start progs).
Proof.
  intros l H. exfalso. unfold holders, start in H. cbn [threads] in H. apply in_flat_map in H. destruct H as (t & T & H).
  apply in_map_iff in T. destruct T as (p & <- & _). exact H.
Qed.
Lemma excl_step pool st st' i : stepped pool st st' i -> excl st -> excl st'.
Proof.
  intros S' E l. specialize (E l). destruct S' as [a b l0 m ops h T L W ->|a b l0 m ops h T L W G ->|a b l0 ops h T L ->|a b w ops h T L ->].
  - exact E.
  - destruct st as [ths q]. cbn [threads] in T. subst ths. rewrite holders_split in *. rewrite mine_cons.
    destruct (lock_eqb l0 l) eqn:EL; [apply lock_eqb_eq in EL; subst l0|cbn [app]; exact E].
    unfold grantable in G. rewrite holders_split in G. cbn [app] in *.
    rewrite (mine_held l {| todo := ops; held := h |} {| todo := Acq l m :: ops; held := h |} eq_refl).
    set (A := flat_map (mine l) a) in *. set (M := mine l {| todo := Acq l m :: ops; held := h |}) in *. set (B := flat_map (mine l) b) in *.
    destruct m.
    + apply andb_true_iff in G. destruct G as (G & _). apply negb_true_iff in G. intro X. exfalso.
      assert (Y : existsb is_exclusive (A ++ M ++ B) = true).
      { apply existsb_exists. exists Exclusive. split; [|reflexivity]. apply in_app_iff in X. apply in_app_iff.
        destruct X as [X|[X|X]]; [left; exact X|discriminate|right; exact X]. }
      congruence.
    + destruct A, M, B; cbn in G; try discriminate. reflexivity.
  - destruct st as [ths q]. cbn [threads] in T. subst ths. rewrite holders_split in *. cbn [queue] in *.
    destruct (mine_release l l0 h ops) as (I & Le).
    rewrite (mine_held l {| todo := Rel l0 :: ops; held := h |} {| todo := ops; held := h |} eq_refl) in E.
    set (A := flat_map (mine l) a) in *. set (M := mine l {| todo := ops; held := h |}) in *. set (B := flat_map (mine l) b) in *.
    set (M' := mine l {| todo := ops; held := release l0 h |}) in *. intro X.
    assert (Y : In Exclusive (A ++ M ++ B)).
    { rewrite !in_app_iff in *. destruct X as [X|[X|X]]; auto. }
    specialize (E Y). assert (Len : length (A ++ M' ++ B) <= 1).
    { pose proof (f_equal (@length _) E) as EL. rewrite !app_length in EL |- *. change (length [Exclusive]) with 1 in EL. clearbody A M M' B. lia. }
    destruct (A ++ M' ++ B) as [|x [|y r]]; [destruct X| |cbn in Len; lia]. destruct X as [->|[]]. reflexivity.
  - destruct st as [ths q]. cbn [threads] in T. subst ths. rewrite holders_split in *. exact E.
Qed.

(* every thread keeps to the discipline *)
Definition tinv (t : thread) : Prop := NoDup (map fst (held t)) /\ (forall m, In (Pool, m) (held t) -> m = Shared) /\ chk (held t) (todo t) = Some [].
Definition inv (st : state) : Prop := Forall tinv (threads st).
Lemma inv_start progs : Forall request progs -> inv (start progs).
Proof.
  intro F. unfold inv, start. cbn [threads]. rewrite Forall_map. eapply Forall_impl; [|exact F]. intros p P. split; [constructor|].
  split; [intros m []|]. apply request_chk, P.
Qed.
Lemma inv_mid st a t t' b q : threads st = a ++ t :: b -> inv st -> (tinv t -> tinv t') -> inv {| threads := a ++ t' :: b; queue := q |}.
Proof.
  unfold inv. intros -> I H. cbn [threads]. apply Forall_app in I. destruct I as (I1 & I2). inversion I2; subst. apply Forall_app. split; [assumption|]. constructor; auto.
Qed.
Lemma inv_step pool st st' i : stepped pool st st' i -> inv st -> inv st'.
Proof.
  intros [a b l0 m ops h T L W ->|a b l0 m ops h T L W G ->|a b l0 ops h T L ->|a b w ops h T L ->] I.
  - exact I.
  - eapply inv_mid; [exact T|exact I|]. intros (N & P & C). cbn [todo held chk] in *. destruct (ok_acq h l0 m) eqn:O; [|discriminate].
    split; [|split; [|exact C]].
    + cbn. constructor; [eapply ok_acq_fresh, O|exact N].
    + cbn [held]. intros m' [E|X]; [|exact (P m' X)]. injection E as -> ->. unfold ok_acq in O. cbn in O. destruct m'; [reflexivity|discriminate].
  - eapply inv_mid; [exact T|exact I|]. intros (N & P & C). cbn [todo held chk] in *. destruct (existsb _ h); [|discriminate].
    split; [apply release_nodup, N|]. split; [|exact C]. cbn [held]. intros m X. apply P. eapply release_in', X.
  - eapply inv_mid; [exact T|exact I|]. intros (N & P & C). cbn [todo held chk] in *. destruct (ok_wait h w); [|discriminate].
    split; [exact N|]. split; [exact P|exact C].
Qed.
Lemma inv_at st i t : inv st -> nth_error (threads st) i = Some t -> tinv t.
Proof. intros I H. unfold inv in I. rewrite Forall_forall in I. apply I. eapply nth_error_In, H. Qed.

(* the number of threads does not change *)
Lemma len_step pool n st st' i : stepped pool st st' i -> length (threads st) = n -> length (threads st') = n.
Proof.
  intros [a b l0 m ops h T L W ->|a b l0 m ops h T L W G ->|a b l0 ops h T L ->|a b w ops h T L ->] E; cbn [threads]; [exact E| | |];
  rewrite T in E; rewrite app_length in *; exact E.
Qed.

(* a thread of the pool is free for who wants one *)
Lemma mine_pool t : tinv t -> length (mine Pool t) <= 1 /\ ~ In Exclusive (mine Pool t).
Proof.
  intros (N & P & _). unfold mine. split.
  - rewrite map_length. clear P. induction (held t) as [|x h IH]; [cbn; lia|]. cbn [map] in N. inversion N as [|? ? N1 N2]; subst. cbn [filter].
    destruct (lock_eqb (fst x) Pool) eqn:E; [|exact (IH N2)]. apply lock_eqb_eq in E. rewrite E in N1. cbn [length].
    assert (Z : filter (fun h => lock_eqb (fst h) Pool) h = []).
    { clear -N1. induction h as [|y h IH]; [reflexivity|]. cbn [filter]. cbn in N1. destruct (lock_eqb (fst y) Pool) eqn:E; [apply lock_eqb_eq in E; tauto|]. apply IH. tauto. }
    rewrite Z. cbn. lia.
  - intro X. apply in_map_iff in X. destruct X as ((l, m) & E & X). cbn in E. subst m. apply filter_In in X. destruct X as (X & E). cbn in E.
    apply lock_eqb_eq in E. subst l. discriminate (P _ X).
Qed.
Lemma pools l : Forall tinv l -> length (flat_map (mine Pool) l) <= length l /\ ~ In Exclusive (flat_map (mine Pool) l).
Proof.
  induction 1 as [|t l T _ (I1 & I2)]; [cbn; auto|]. cbn [flat_map length]. rewrite app_length. destruct (mine_pool t T) as (M1 & M2).
  split; [lia|]. rewrite in_app_iff. tauto.
Qed.
Lemma pool_free pool st i m ops h : inv st -> length (threads st) <= pool -> nth_error (threads st) i = Some {| todo := Acq Pool m :: ops; held := h |} ->
  grantable pool st Pool m = true.
Proof.
  intros I Le E. destruct (split_at _ _ _ E) as (a & b & T & _ & _). destruct st as [ths q]. cbn [threads] in *. subst ths.
  unfold inv in I. cbn [threads] in I. apply Forall_app in I. destruct I as (Ia & Ib). inversion Ib as [|? ? (N & P & C) Ib']; subst.
  cbn [todo held chk] in C. destruct (ok_acq h Pool m) eqn:O; [|discriminate]. unfold ok_acq in O. cbn [lock_eqb] in O.
  apply andb_true_iff in O. destruct O as (O1 & O2). destruct m; [|discriminate].
  unfold grantable. rewrite holders_split.
  assert (Z : mine Pool {| todo := Acq Pool Shared :: ops; held := h |} = []).
  { unfold mine. cbn [held]. clear -O2. induction h as [|y h IH]; [reflexivity|]. cbn [forallb filter] in *. apply andb_true_iff in O2. destruct O2 as (O & O2).
    apply negb_true_iff in O. rewrite O. apply IH, O2. }
  rewrite Z. cbn [app]. destruct (pools a Ia) as (A1 & A2), (pools b Ib') as (B1 & B2). apply andb_true_iff. split.
  - apply negb_true_iff. apply not_true_iff_false. intro X. apply existsb_exists in X. destruct X as (x & X & Ex). destruct x; [discriminate|].
    apply in_app_iff in X. tauto.
  - cbn [lock_eqb negb orb]. apply Nat.ltb_lt. rewrite app_length in *. cbn in Le. lia.
Qed.

(* ---- when nobody can go on ---- *)

Section Stuck.
Variables (pool : nat) (pass : state -> nat -> bool) (stalled : nat -> bool) (st : state).
Hypothesis I : inv st.
Hypothesis Le : length (threads st) <= pool.
Hypothesis St : stuck pool pass stalled st.

(* what an unfinished thread is at *)
Lemma stuck_at i t : nth_error (threads st) i = Some t ->
  (t = {| todo := []; held := [] |}) \/
  (stalled i = true /\ at_peer st i /\ forall l m, In (l, m) (held t) -> of_files l = true) \/
  (exists l m ops, todo t = Acq l m :: ops /\ waits st i = true /\ l <> Pool).
Proof.
  intro E. pose proof (St i) as X. unfold step_if in X. pose proof (inv_at _ _ _ I E) as (N & P & C). destruct t as [[|[l m|l|w] ops] h].
  - left. cbn in C. injection C as ->. reflexivity.
  - right. right. exists l, m, ops. split; [reflexivity|].
    assert (Z : at_peer_b st i = false) by (unfold at_peer_b; rewrite E; reflexivity). rewrite Z, andb_false_r in X.
    unfold step in X. rewrite E in X. cbn [todo] in X. destruct (waits st i) eqn:W; [|discriminate]. split; [reflexivity|].
    intros ->. (* the first who waits for the pool gets a thread *)
    clear X. unfold waits in W. apply existsb_exists in W. destruct W as (i' & W & Ei). apply Nat.eqb_eq in Ei. subst i'.
    assert (F : exists j, first st Pool = Some j).
    { unfold first. destruct (find (wants st Pool) (queue st)) eqn:F; [eauto|]. pose proof (find_none _ _ F _ W) as Q. unfold wants in Q. rewrite E in Q. discriminate. }
    destruct F as (j & F). pose proof F as F0. unfold first in F. apply find_some in F. destruct F as (Qj & Wj).
    unfold wants in Wj. destruct (nth_error (threads st) j) as [[[|[l' m'|?|?] ops'] h']|] eqn:Ej; try discriminate. apply lock_eqb_eq in Wj. subst l'.
    pose proof (St j) as X. unfold step_if in X. assert (Zj : at_peer_b st j = false) by (unfold at_peer_b; rewrite Ej; reflexivity).
    rewrite Zj, andb_false_r in X. unfold step in X. rewrite Ej in X. cbn [todo] in X.
    assert (Wj : waits st j = true) by (apply existsb_exists; exists j; split; [exact Qj|apply Nat.eqb_refl]). rewrite Wj in X.
    rewrite (pool_free pool st j m' ops' h' I Le Ej) in X. unfold is_first in X. rewrite F0, Nat.eqb_refl in X. discriminate.
  - exfalso. assert (Z : at_peer_b st i = false) by (unfold at_peer_b; rewrite E; reflexivity). rewrite Z, andb_false_r in X.
    unfold step in X. rewrite E in X. discriminate.
  - right. left. unfold step in X. rewrite E in X. cbn [todo] in X. destruct (stalled i); [|discriminate].
    unfold at_peer_b in X. rewrite E in X. cbn [chk todo held] in C. destruct (ok_wait h w) eqn:O; [|discriminate].
    destruct w; cbn in X; try discriminate; (split; [reflexivity|]; split; [exists ops, h; rewrite E; auto|]); intros l m Y; cbn in O; rewrite forallb_forall in O; exact (O _ Y).
Qed.

(* a lock that is waited for is held *)
Lemma waited_held i l m ops h : nth_error (threads st) i = Some {| todo := Acq l m :: ops; held := h |} -> exists k t m', nth_error (threads st) k = Some t /\ In (l, m') (held t).
Proof.
  intro E. destruct (stuck_at _ _ E) as [X|[(_ & (o & h' & [X|X]) & _)|(l' & m' & ops' & X & W & NP)]]; [discriminate| | |].
  - rewrite E in X. injection X as X. discriminate.
  - rewrite E in X. injection X as X. discriminate.
  - cbn in X. injection X as <- <- <-. unfold waits in W. apply existsb_exists in W. destruct W as (i' & W & Ei). apply Nat.eqb_eq in Ei. subst i'.
    assert (F : exists j, first st l = Some j).
    { unfold first. destruct (find (wants st l) (queue st)) eqn:F; [eauto|]. pose proof (find_none _ _ F _ W) as Q. unfold wants in Q. rewrite E, lock_eqb_refl in Q. discriminate. }
    destruct F as (j & F). pose proof F as F0. unfold first in F. apply find_some in F. destruct F as (Qj & Wj).
    unfold wants in Wj. destruct (nth_error (threads st) j) as [[[|[l' m'|?|?] ops'] h']|] eqn:Ej; try discriminate. apply lock_eqb_eq in Wj. subst l'.
    pose proof (St j) as X. unfold step_if in X. assert (Zj : at_peer_b st j = false) by (unfold at_peer_b; rewrite Ej; reflexivity).
    rewrite Zj, andb_false_r in X. unfold step in X. rewrite Ej in X. cbn [todo] in X.
    assert (Wj : waits st j = true) by (apply existsb_exists; exists j; split; [exact Qj|apply Nat.eqb_refl]). rewrite Wj in X.
    unfold is_first in X. rewrite F0, Nat.eqb_refl in X. cbn [orb] in X. rewrite andb_true_r in X.
    destruct (grantable pool st l m') eqn:G; [discriminate|].
    assert (H : exists x, In x (holders st l)).
    { unfold grantable in G. apply lock_eqb_neq in NP. rewrite NP in G. destruct (holders st l) as [|x r]; [destruct m'; discriminate|]. exists x. left. reflexivity. }
    destruct H as (x & H). unfold holders in H. apply in_flat_map in H. destruct H as (t & T & H). apply In_nth_error in T. destruct T as (k & T).
    apply in_map_iff in H. destruct H as ((l'' & y) & Ey & H). apply filter_In in H. destruct H as (H & EL). cbn in EL. apply lock_eqb_eq in EL. subst l''.
    exists k, t, y. auto.
Qed.

(* behind everyone who waits for a lock is someone at a peer *)
Lemma blamed n : forall i l, 5 - rank l <= n -> blocked_on st i l ->
  of_files l = true /\ exists k t l' m', nth_error (threads st) k = Some t /\ stalled k = true /\ at_peer st k /\ In (l', m') (held t) /\ of_files l' = true /\
    rank l <= rank l' /\ (rank l = 5 -> l' = l).
Proof.
  induction n as [n IH] using lt_wf_ind. intros i l Ln (m & ops & h & E).
  destruct (waited_held _ _ _ _ _ E) as (k & t & m' & Ek & Hk).
  destruct (stuck_at _ _ Ek) as [->|[(Sk & Pk & Fk)|(l' & m2 & ops' & Tk & _ & NP)]].
  - destruct Hk.
  - split; [eapply Fk, Hk|]. exists k, t, l, m'. split; [exact Ek|]. split; [exact Sk|]. split; [exact Pk|]. split; [exact Hk|]. split; [eapply Fk, Hk|].
    split; [lia|reflexivity].
  - pose proof (inv_at _ _ _ I Ek) as (N & P & C). rewrite Tk in C. cbn [chk] in C. destruct (ok_acq (held t) l' m2) eqn:O; [|discriminate].
    unfold ok_acq in O. pose proof NP as NP'. apply lock_eqb_neq in NP'. rewrite NP' in O. rewrite forallb_forall in O. specialize (O _ Hk). cbn [fst] in O.
    assert (NL : l <> Pool).
    { destruct (stuck_at _ _ E) as [X|[(_ & (o & h' & [X|X]) & _)|(l1 & m1 & ops1 & X & W & NP1)]]; [discriminate| | |].
      - rewrite E in X. injection X as X. discriminate.
      - rewrite E in X. injection X as X. discriminate.
      - cbn in X. injection X as <- <- <-. exact NP1. }
    apply lock_eqb_neq in NL. rewrite NL in O. cbn [orb] in O. apply andb_true_iff in O. destruct O as (R & F). apply Nat.ltb_lt in R.
    assert (RB : forall l, rank l <= 5) by (intros []; cbn; lia). pose proof (RB l') as RB'.
    assert (B : blocked_on st k l').
    { destruct t as [td hd]. cbn in Tk. subst td. exists m2, ops', hd. exact Ek. }
    destruct (IH (n - 1) ltac:(lia) k l' ltac:(lia) B) as (Fl & k2 & t2 & l2 & m3 & E2 & S2 & P2 & H2 & F2 & R2 & _).
    rewrite Fl in F. cbn in F. split; [exact F|]. exists k2, t2, l2, m3. repeat (split; [assumption|]). split; [lia|]. intro X. lia.
Qed.
End Stuck.

(* ---- how many turns there are ---- *)

Definition left_of (st : state) (i : nat) (o : option thread) : nat :=
  match o with
  | None => 0
  | Some t => match todo t with
              | Acq l m :: ops => if waits st i then 1 + 2 * length ops else 2 + 2 * length ops
              | ops => 2 * length ops
              end
  end.
Definition total (st : state) : nat := list_sum (map (fun i => left_of st i (nth_error (threads st) i)) (seq 0 (length (threads st)))).

Lemma sum_le s : forall n (f g : nat -> nat), (forall j, f j <= g j) -> list_sum (map f (seq s n)) <= list_sum (map g (seq s n)).
Proof. intro n. revert s. induction n as [|n IH]; intros s f g H; [cbn; lia|]. cbn [seq map]. unfold list_sum in *. cbn [fold_right]. specialize (IH (S s) f g H). specialize (H s). lia. Qed.
Lemma sum_lt n : forall s (f g : nat -> nat) i, s <= i < s + n -> (forall j, f j <= g j) -> f i < g i -> list_sum (map f (seq s n)) < list_sum (map g (seq s n)).
Proof.
  induction n as [|n IH]; intros s f g i R E L; [lia|]. cbn [seq map]. unfold list_sum in *. cbn [fold_right].
  destruct (Nat.eq_dec i s) as [->|N].
  - pose proof (sum_le (S s) n f g E) as X. unfold list_sum in X. lia.
  - specialize (IH (S s) f g i ltac:(lia) E L). specialize (E s). lia.
Qed.
Lemma waits_app st i j ths : waits {| threads := ths; queue := queue st ++ [i] |} j = waits st j || Nat.eqb j i.
Proof. unfold waits. cbn [queue]. rewrite existsb_app. cbn [existsb]. rewrite orb_false_r. reflexivity. Qed.
Lemma waits_filter st i j ths : j <> i -> waits {| threads := ths; queue := filter (fun j => negb (Nat.eqb i j)) (queue st) |} j = waits st j.
Proof.
  intro N. unfold waits. cbn [queue]. induction (queue st) as [|x q IH]; [reflexivity|]. cbn [filter existsb].
  destruct (Nat.eqb_spec i x) as [->|]; cbn [negb].
  - rewrite IH. apply Nat.eqb_neq in N. rewrite N. reflexivity.
  - cbn [existsb]. rewrite IH. reflexivity.
Qed.
Lemma nth_mid {A} (a : list A) x b j : nth_error (a ++ x :: b) j = if Nat.eqb j (length a) then Some x else nth_error (a ++ b) (if Nat.ltb j (length a) then j else j - 1).
Proof.
  destruct (Nat.eqb_spec j (length a)) as [->|N]; [rewrite nth_error_app2, Nat.sub_diag by lia; reflexivity|].
  destruct (Nat.ltb_spec j (length a)) as [L|L].
  - rewrite !nth_error_app1 by lia. reflexivity.
  - rewrite !nth_error_app2 by lia. replace (j - length a) with (S (j - 1 - length a)) by lia. reflexivity.
Qed.
Lemma left_bound st i t : left_of st i (Some t) <= 2 * length (todo t).
Proof. destruct t as [[|[l m|l|w] ops] h]; cbn [left_of todo length]; try lia. destruct (waits st i); lia. Qed.
Lemma left_waits st st' i o : waits st' i = waits st i -> left_of st' i o = left_of st i o.
Proof. intro E. destruct o as [[[|[l m|l|w] ops] h]|]; cbn [left_of todo]; try reflexivity. rewrite E. reflexivity. Qed.
Lemma total_step pool st st' i : stepped pool st st' i -> total st' < total st.
Proof.
  intros [a b l0 m ops h T L W ->|a b l0 m ops h T L W G ->|a b l0 ops h T L ->|a b w ops h T L ->]; unfold total; cbn [threads]; rewrite T; rewrite ?app_length; cbn [length]; subst i.
  - apply (sum_lt _ 0 _ _ (length a)); [lia| |].
    + intro j. destruct (nth_error _ j) as [[[|[l m'|l|w] ops'] h']|]; cbn [left_of todo]; try lia. rewrite waits_app. destruct (waits st j); cbn [orb]; [lia|]. destruct (Nat.eqb j (length a)); lia.
    + rewrite nth_mid, Nat.eqb_refl. cbn [left_of todo]. rewrite waits_app, Nat.eqb_refl, orb_true_r, W. lia.
  - apply (sum_lt _ 0 _ _ (length a)); [lia| |].
    + intro j. rewrite !nth_mid. destruct (Nat.eqb_spec j (length a)) as [->|N].
      * etransitivity; [apply left_bound|]. cbn [todo left_of]. destruct (waits st (length a)); lia.
      * rewrite (left_waits st); [lia|]. apply waits_filter, N.
    + rewrite !nth_mid, Nat.eqb_refl. eapply Nat.le_lt_trans; [apply left_bound|]. cbn [todo left_of]. rewrite W. lia.
  - apply (sum_lt _ 0 _ _ (length a)); [lia| |].
    + intro j. rewrite !nth_mid. destruct (Nat.eqb_spec j (length a)) as [->|N].
      * etransitivity; [apply left_bound|]. cbn [todo left_of length]. lia.
      * rewrite (left_waits st); [lia|reflexivity].
    + rewrite !nth_mid, Nat.eqb_refl. eapply Nat.le_lt_trans; [apply left_bound|]. cbn [todo left_of length]. lia.
  - apply (sum_lt _ 0 _ _ (length a)); [lia| |].
    + intro j. rewrite !nth_mid. destruct (Nat.eqb_spec j (length a)) as [->|N].
      * etransitivity; [apply left_bound|]. cbn [todo left_of length]. lia.
      * rewrite (left_waits st); [lia|reflexivity].
    + rewrite !nth_mid, Nat.eqb_refl. eapply Nat.le_lt_trans; [apply left_bound|]. cbn [todo left_of length]. lia.
Qed.
Lemma sum_seq {A} (g : option A -> nat) (l : list A) : list_sum (map (fun i => g (nth_error l i)) (seq 0 (length l))) = list_sum (map (fun x => g (Some x)) l).
Proof.
  induction l as [|x l IH]; [reflexivity|]. cbn [length seq map]. unfold list_sum in *. cbn [fold_right nth_error]. f_equal.
  rewrite <- seq_shift, map_map. exact IH.
Qed.
Lemma total_start progs : total (start progs) <= turns progs.
Proof.
  unfold total, turns.
  transitivity (list_sum (map (fun i => match nth_error (threads (start progs)) i with Some t => 2 * length (todo t) | None => 0 end) (seq 0 (length (threads (start progs)))))).
  - apply sum_le. intro j. destruct (nth_error (threads (start progs)) j); [apply left_bound|cbn; lia].
  - rewrite (sum_seq (fun o => match o with Some t => 2 * length (todo t) | None => 0 end)). unfold start. cbn [threads]. rewrite map_map. cbn [todo]. lia.
Qed.
Lemma total_turns pool pass stalled sched st n : total st <= n -> total (take_turns pool pass stalled st sched) <= n.
Proof.
  intro H. apply (turns_inv pool pass stalled (fun st => total st <= n)); [|exact H]. intros s s' i X. apply total_step in X. lia.
Qed.
Lemma schedule_inv pool pass stalled pick (P : state -> Prop) n : (forall st st' i, stepped pool st st' i -> P st -> P st') ->
  forall st, P st -> P (schedule pool pass stalled pick n st).
Proof.
  intro S'. induction n as [|n IH]; intros st H; [exact H|]. cbn [schedule]. apply IH.
  destruct (step_if pool pass stalled st (pick st)) as [st'|] eqn:E; [|exact H]. unfold step_if in E.
  destruct (stalled (pick st) && at_peer_b st (pick st)); [discriminate|]. eapply S'; [eapply step_stepped, E|exact H].
Qed.
Lemma schedule_stuck pool pass stalled pick : willing pool pass stalled pick ->
  forall n st, total st <= n -> stuck pool pass stalled (schedule pool pass stalled pick n st).
Proof.
  intro W. assert (D : forall st, step_if pool pass stalled st (pick st) = None -> stuck pool pass stalled st).
  { intros st E i. destruct (step_if pool pass stalled st i) eqn:X; [|reflexivity]. exfalso. apply (W st i); [congruence|exact E]. }
  assert (K : forall n st, stuck pool pass stalled st -> stuck pool pass stalled (schedule pool pass stalled pick n st)).
  { induction n as [|n IH]; intros st X; [exact X|]. cbn [schedule]. rewrite (X (pick st)). apply IH, X. }
  induction n as [|n IH]; intros st L; cbn [schedule].
  - apply D. destruct (step_if pool pass stalled st (pick st)) as [st'|] eqn:E; [|reflexivity]. exfalso. unfold step_if in E.
    destruct (stalled (pick st) && at_peer_b st (pick st)); [discriminate|]. apply step_stepped, total_step in E. lia.
  - destruct (step_if pool pass stalled st (pick st)) as [st'|] eqn:E; [|apply K, D, E]. apply IH. unfold step_if in E.
    destruct (stalled (pick st) && at_peer_b st (pick st)); [discriminate|]. apply step_stepped, total_step in E. lia.
Qed.

(* what is left to do of a request *)
Definition rest_of (progs : list (list op)) (st : state) : Prop :=
  forall i t, nth_error (threads st) i = Some t -> exists p d, nth_error progs i = Some p /\ p = d ++ todo t.
Lemma rest_start progs : rest_of progs (start progs).
Proof.
  intros i t H. unfold start in H. cbn [threads] in H. rewrite nth_error_map in H. destruct (nth_error progs i) as [p|]; [|discriminate].
  injection H as <-. exists p, []. auto.
Qed.
Lemma rest_step progs pool st st' i : stepped pool st st' i -> rest_of progs st -> rest_of progs st'.
Proof.
  intros [a b l0 m ops h T L W ->|a b l0 m ops h T L W G ->|a b l0 ops h T L ->|a b w ops h T L ->] R j t; cbn [threads]; [exact (R j t)| | |];
  specialize (R j); rewrite T in R; rewrite nth_mid in R |- *; (destruct (Nat.eqb j (length a)); [|exact (R t)]);
  intro E; injection E as <-; destruct (R _ eq_refl) as (p & d & Ep & E); cbn [todo] in *;
  eexists p, (d ++ [_]); (split; [exact Ep|]); rewrite <- app_assoc; exact E.
Qed.

(* ---- more requests for a manifest than the pool has threads ---- *)

Definition retry_prog : list op := talk ++ retry_manifest 1 Done true ++ fetch_manifest 1 FromDisk ++ talk.
Definition in_order (st : state) (i : nat) : bool := false.
Section Jam.
Variable pool : nat.
Definition fresh : thread := {| todo := retry_prog; held := [] |}.
(* the first has the lock of the file, the others have threads of the pool and wait for it *)
Definition got : thread := {| todo := skipn 10 retry_prog; held := [(ManifestFile 1, Exclusive)] |}.
Definition parked : thread := {| todo := skipn 8 retry_prog; held := [(Pool, Shared)] |}.
Definition G (k : nat) (t : thread) (j : nat) (q : list nat) : state := {| threads := (got :: repeat parked k) ++ t :: repeat fresh j; queue := q |}.
Definition one (st : state) (i : nat) : state := match step_if pool in_order nobody st i with Some st' => st' | None => st end.

Lemma mine_repeat l t n : flat_map (mine l) (repeat t n) = concat (repeat (mine l t) n).
Proof. induction n as [|n IH]; [reflexivity|]. cbn [repeat flat_map concat]. f_equal. exact IH. Qed.
Lemma concat_nils {A} n : concat (repeat (@nil A) n) = [].
Proof. induction n; [reflexivity|assumption]. Qed.
Lemma concat_ones {A} (x : A) n : concat (repeat [x] n) = repeat x n.
Proof. induction n as [|n IH]; [reflexivity|]. cbn [repeat concat app]. f_equal. exact IH. Qed.
Lemma holders_G k t j q l : holders (G k t j q) l = mine l got ++ concat (repeat (mine l parked) k) ++ mine l t.
Proof.
  unfold G. rewrite holders_split. cbn [flat_map]. rewrite !mine_repeat. change (mine l fresh) with (@nil mode). rewrite concat_nils, app_nil_r.
  rewrite <- app_assoc. reflexivity.
Qed.
Lemma nth_G k t j q : nth_error (threads (G k t j q)) (S k) = Some t.
Proof. unfold G. cbn [threads]. rewrite nth_mid. cbn [length]. rewrite repeat_length, Nat.eqb_refl. reflexivity. Qed.
Lemma upd_G k t t' j q : upd (S k) t' (threads (G k t j q)) = threads (G k t' j q).
Proof.
  destruct (split_at _ _ _ (nth_G k t j q)) as (a & b & E & L & U). rewrite U. unfold G in *. cbn [threads] in *.
  assert (X : length (got :: repeat parked k) = length a) by (cbn [length]; rewrite repeat_length; congruence).
  assert (Y : got :: repeat parked k = a).
  { apply (f_equal (firstn (length a))) in E. rewrite <- X in E at 1. rewrite !firstn_app, !Nat.sub_diag, !firstn_all in E. cbn [firstn] in E. rewrite !app_nil_r in E. exact E. }
  rewrite <- Y in E. apply app_inv_head in E. injection E as E. rewrite <- Y, E. reflexivity.
Qed.
Lemma not_yet k : waits {| threads := []; queue := seq 1 k |} (S k) = false.
Proof.
  unfold waits. cbn [queue]. apply not_true_iff_false. intro H. apply existsb_exists in H. destruct H as (x & X & E). apply Nat.eqb_eq in E. apply in_seq in X. lia.
Qed.
Lemma one_rel k l ops h j q : one (G k {| todo := Rel l :: ops; held := h |} j q) (S k) = G k {| todo := ops; held := release l h |} j q.
Proof. unfold one, step_if, nobody. cbn [andb]. unfold step. rewrite nth_G. cbn [todo held]. rewrite upd_G. reflexivity. Qed.
Lemma one_wait k w ops h j q : one (G k {| todo := Wait w :: ops; held := h |} j q) (S k) = G k {| todo := ops; held := h |} j q.
Proof. unfold one, step_if, nobody. cbn [andb]. unfold step. rewrite nth_G. cbn [todo held]. rewrite upd_G. reflexivity. Qed.
Lemma one_ask k l m ops h j : one (G k {| todo := Acq l m :: ops; held := h |} j (seq 1 k)) (S k) = G k {| todo := Acq l m :: ops; held := h |} j (seq 1 (S k)).
Proof.
  unfold one, step_if, nobody. cbn [andb]. unfold step. rewrite nth_G. cbn [todo held].
  change (waits (G k {| todo := Acq l m :: ops; held := h |} j (seq 1 k)) (S k)) with (waits {| threads := []; queue := seq 1 k |} (S k)). rewrite not_yet.
  unfold G. cbn [queue threads]. rewrite seq_S. reflexivity.
Qed.
Lemma parked_at k t j q i : 1 <= i <= k -> nth_error (threads (G k t j q)) i = Some parked.
Proof.
  intro R. unfold G. cbn [threads]. rewrite nth_error_app1 by (cbn [length]; rewrite repeat_length; lia). destruct i as [|i]; [lia|]. cbn [nth_error].
  apply nth_error_repeat. lia.
Qed.
Lemma one_get k l m ops h j : (forall l', l = l' -> l' <> ManifestFile 1) ->
  grantable pool (G k {| todo := Acq l m :: ops; held := h |} j (seq 1 (S k))) l m = true ->
  one (G k {| todo := Acq l m :: ops; held := h |} j (seq 1 (S k))) (S k) = G k {| todo := ops; held := (l, m) :: h |} j (seq 1 k).
Proof.
  intros N Gr. unfold one, step_if, nobody. cbn [andb]. unfold step. rewrite nth_G. cbn [todo held].
  set (st := G k {| todo := Acq l m :: ops; held := h |} j (seq 1 (S k))) in *.
  assert (W : waits st (S k) = true).
  { apply existsb_exists. exists (S k). split; [|apply Nat.eqb_refl]. unfold st, G. cbn [queue]. apply in_seq. lia. }
  rewrite W, Gr. cbn [andb].
  assert (F : is_first st l (S k) = true).
  { unfold is_first, first. assert (E : find (wants st l) (queue st) = Some (S k)).
    { unfold st at 2, G. cbn [queue]. rewrite seq_S. replace (1 + k) with (S k) by lia.
      assert (X : forall s, incl s (seq 1 k) -> find (wants st l) (s ++ [S k]) = Some (S k)).
      { induction s as [|x s IH]; intro In0; cbn [app find].
        - unfold wants. unfold st. rewrite nth_G. rewrite lock_eqb_refl. reflexivity.
        - assert (Xk : 1 <= x <= k) by (pose proof (In0 x (or_introl eq_refl)) as Y; apply in_seq in Y; lia).
          assert (Wx : wants st l x = lock_eqb (ManifestFile 1) l) by (unfold wants, st; rewrite (parked_at k _ j _ x Xk); reflexivity).
          assert (Z : lock_eqb (ManifestFile 1) l = false) by (apply lock_eqb_neq; intro; subst l; exact (N _ eq_refl eq_refl)). rewrite Wx, Z.
          apply IH. intros y Y. apply In0. right. exact Y. }
      apply X, incl_refl. }
    rewrite E. apply Nat.eqb_refl. }
  rewrite F. cbn [orb]. unfold st. rewrite upd_G. unfold G. cbn [threads queue]. f_equal.
  rewrite seq_S, filter_app. cbn [filter]. rewrite Nat.eqb_refl. cbn [negb]. rewrite app_nil_r.
  assert (X : forall s, incl s (seq 1 k) -> filter (fun j0 => negb (Nat.eqb (S k) j0)) s = s).
  { induction s as [|x s IH]; intro In0; [reflexivity|]. cbn [filter].
    assert (Xk : 1 <= x <= k) by (pose proof (In0 x (or_introl eq_refl)) as Y; apply in_seq in Y; lia).
    assert (Z : Nat.eqb (S k) x = false) by (apply Nat.eqb_neq; lia). rewrite Z. cbn [negb]. f_equal. apply IH. intros y Y. apply In0. right. exact Y. }
  apply X, incl_refl.
Qed.

Lemma park k j : k < pool -> fold_left one (repeat (S k) 13) (G k fresh j (seq 1 k)) = G k parked j (seq 1 (S k)).
Proof.
  intro L. cbn [repeat fold_left]. unfold fresh. change retry_prog with (Wait Client :: skipn 1 retry_prog). rewrite one_wait.
  change (skipn 1 retry_prog) with (Acq Runs Shared :: skipn 2 retry_prog). rewrite one_ask, one_get; [|intros l' <-; discriminate|].
  2: { unfold grantable. rewrite holders_G. cbn [mine got parked held map filter fst lock_eqb app]. rewrite concat_nils. reflexivity. }
  change (skipn 2 retry_prog) with (Acq (RunOf 1) Shared :: skipn 3 retry_prog). rewrite one_ask, one_get; [|intros l' <-; discriminate|].
  2: { unfold grantable. rewrite holders_G. cbn [mine got parked held map filter fst lock_eqb app]. rewrite concat_nils. reflexivity. }
  change (skipn 3 retry_prog) with (Acq (Seen 1) Exclusive :: skipn 4 retry_prog). rewrite one_ask, one_get; [|intros l' <-; discriminate|].
  2: { unfold grantable. rewrite holders_G. cbn [mine got parked held map filter fst lock_eqb app]. rewrite concat_nils. reflexivity. }
  change (skipn 4 retry_prog) with (Rel (Seen 1) :: Rel (RunOf 1) :: Rel Runs :: Acq Pool Shared :: skipn 8 retry_prog). rewrite !one_rel.
  cbn [release fst lock_eqb Nat.eqb]. rewrite one_ask, one_get; [|intros l' <-; discriminate|].
  2: { unfold grantable. rewrite holders_G. cbn [mine got parked held map filter fst snd lock_eqb app]. rewrite concat_ones, app_nil_r.
       rewrite repeat_length. cbn [negb orb]. apply Nat.ltb_lt in L. rewrite L, andb_true_r. apply negb_true_iff. apply not_true_iff_false. intro X.
       apply existsb_exists in X. destruct X as (x & X & E). apply repeat_spec in X. subst x. discriminate. }
  change (skipn 8 retry_prog) with (Acq (ManifestFile 1) Exclusive :: skipn 9 retry_prog). rewrite one_ask. reflexivity.
Qed.
Lemma G_next k j q : G k parked (S j) q = G (S k) fresh j q.
Proof. unfold G. f_equal. cbn [app repeat]. f_equal. induction k as [|k IH]; [reflexivity|]. cbn [repeat app]. f_equal. exact IH. Qed.
Lemma park_all n : forall k j, k + n < pool -> fold_left one (flat_map (fun i => repeat i 13) (seq (S k) n)) (G k fresh (n + j) (seq 1 k)) = G (k + n) fresh j (seq 1 (k + n)).
Proof.
  induction n as [|n IH]; intros k j L; [cbn; rewrite Nat.add_0_r; reflexivity|]. cbn [seq flat_map]. rewrite fold_left_app, park by lia. cbn [Nat.add]. rewrite G_next.
  rewrite IH by lia. rewrite <- Nat.add_succ_comm. reflexivity.
Qed.
Definition jam_schedule (n : nat) : list nat := repeat 0 15 ++ flat_map (fun i => repeat i 13) (seq 1 n) ++ [0].
Definition jammed (n : nat) : state := {| threads := got :: repeat parked n; queue := seq 1 n ++ [0] |}.
Definition H (t : thread) (n : nat) (q : list nat) : state := {| threads := t :: repeat fresh n; queue := q |}.
Lemma holders_H t n q l : holders (H t n q) l = mine l t.
Proof.
  unfold H. change (t :: repeat fresh n) with ([] ++ t :: repeat fresh n). rewrite holders_split. cbn [flat_map app]. rewrite mine_repeat.
  change (mine l fresh) with (@nil mode). rewrite concat_nils, app_nil_r. reflexivity.
Qed.
Lemma one_rel0 l ops h n q : one (H {| todo := Rel l :: ops; held := h |} n q) 0 = H {| todo := ops; held := release l h |} n q.
Proof. reflexivity. Qed.
Lemma one_wait0 w ops h n q : one (H {| todo := Wait w :: ops; held := h |} n q) 0 = H {| todo := ops; held := h |} n q.
Proof. reflexivity. Qed.
Lemma one_ask0 l m ops h n : one (H {| todo := Acq l m :: ops; held := h |} n []) 0 = H {| todo := Acq l m :: ops; held := h |} n [0].
Proof. reflexivity. Qed.
Lemma one_get0 l m ops h n : grantable pool (H {| todo := Acq l m :: ops; held := h |} n [0]) l m = true ->
  one (H {| todo := Acq l m :: ops; held := h |} n [0]) 0 = H {| todo := ops; held := (l, m) :: h |} n [].
Proof.
  intro Gr. unfold one, step_if, nobody. cbn [andb]. unfold step. unfold H at 1. cbn [threads nth_error todo]. unfold waits. unfold H at 1. cbn [queue existsb Nat.eqb orb].
  rewrite Gr. unfold is_first, first. unfold H at 2. cbn [queue find]. unfold wants. cbn [H threads nth_error]. rewrite lock_eqb_refl. reflexivity.
Qed.
Lemma first_gets n : 0 < pool -> fold_left one (repeat 0 15) (start (repeat retry_prog (S n))) = H got n [].
Proof.
  intro P. assert (E : start (repeat retry_prog (S n)) = H fresh n []).
  { unfold start, H. f_equal. cbn [repeat map]. f_equal. induction n as [|n' IH]; [reflexivity|]. cbn [repeat map]. f_equal. exact IH. }
  rewrite E. cbn [repeat fold_left]. unfold fresh at 1. change retry_prog with (Wait Client :: skipn 1 retry_prog) at 1. rewrite one_wait0.
  assert (Lt : (negb (lock_eqb Pool Pool) || Nat.ltb 0 pool) = true) by (apply Nat.ltb_lt in P; rewrite P; reflexivity).
  change (skipn 1 retry_prog) with (Acq Runs Shared :: skipn 2 retry_prog). rewrite one_ask0, one_get0 by (unfold grantable; rewrite holders_H; reflexivity).
  change (skipn 2 retry_prog) with (Acq (RunOf 1) Shared :: skipn 3 retry_prog). rewrite one_ask0, one_get0 by (unfold grantable; rewrite holders_H; reflexivity).
  change (skipn 3 retry_prog) with (Acq (Seen 1) Exclusive :: skipn 4 retry_prog). rewrite one_ask0, one_get0 by (unfold grantable; rewrite holders_H; reflexivity).
  change (skipn 4 retry_prog) with (Rel (Seen 1) :: Rel (RunOf 1) :: Rel Runs :: Acq Pool Shared :: skipn 8 retry_prog). rewrite !one_rel0.
  cbn [release fst lock_eqb Nat.eqb]. rewrite one_ask0, one_get0 by (unfold grantable; rewrite holders_H; exact Lt).
  change (skipn 8 retry_prog) with (Acq (ManifestFile 1) Exclusive :: skipn 9 retry_prog). rewrite one_ask0, one_get0 by (unfold grantable; rewrite holders_H; reflexivity).
  change (skipn 9 retry_prog) with (Rel Pool :: skipn 10 retry_prog). rewrite one_rel0. cbn [release fst lock_eqb]. reflexivity.
Qed.
Lemma jam_reached n : n < pool -> take_turns pool in_order nobody (start (repeat retry_prog (S (S n)))) (jam_schedule (S n)) = jammed (S n).
Proof.
  intro L. unfold jam_schedule, take_turns. change (fun (st : state) (i : nat) => match step_if pool in_order nobody st i with Some st' => st' | None => st end) with one.
  rewrite !fold_left_app, first_gets by lia.
  assert (E : H got (S n) [] = G 0 fresh n (seq 1 0)) by reflexivity. rewrite E.
  rewrite seq_S, flat_map_app, fold_left_app. cbn [flat_map]. rewrite app_nil_r.
  pose proof (park_all n 0 0 ltac:(lia)) as Q. rewrite Nat.add_0_r in Q. cbn [Nat.add] in Q. rewrite Q. clear Q.
  rewrite park by lia. cbn [fold_left]. unfold one, step_if, nobody. cbn [andb]. unfold step, G, jammed. cbn [threads app nth_error].
  change (todo got) with (Acq Pool Shared :: skipn 11 retry_prog). cbv iota.
  assert (W : waits {| threads := got :: repeat parked n ++ parked :: repeat fresh 0; queue := seq 1 (S n) |} 0 = false).
  { unfold waits. cbn [queue]. apply not_true_iff_false. intro X. apply existsb_exists in X. destruct X as (x & X & Ex). apply in_seq in X. apply Nat.eqb_eq in Ex. lia. }
  rewrite W. cbn [queue repeat]. do 2 f_equal. clear. induction n as [|n IH]; [reflexivity|]. cbn [repeat app]. f_equal. exact IH.
Qed.
Lemma jam_stuck pass : stuck pool pass nobody (jammed pool).
Proof.
  intro i. unfold step_if, nobody. cbn [andb]. unfold step. destruct (nth_error (threads (jammed pool)) i) as [t|] eqn:E; [|reflexivity].
  assert (Hs : forall l, holders (jammed pool) l = mine l got ++ concat (repeat (mine l parked) pool)).
  { intro l. unfold holders, jammed. cbn [threads flat_map]. rewrite <- mine_repeat. reflexivity. }
  assert (Wi : i <= pool -> waits (jammed pool) i = true).
  { intro Li. apply existsb_exists. exists i. split; [|apply Nat.eqb_refl]. unfold jammed. cbn [queue]. apply in_app_iff.
    destruct i; [right; left; reflexivity|left; apply in_seq; lia]. }
  assert (Li : i <= pool).
  { assert (X : nth_error (threads (jammed pool)) i <> None) by congruence. apply nth_error_Some in X. unfold jammed in X. cbn [threads length] in X. rewrite repeat_length in X. lia. }
  rewrite (Wi Li). unfold jammed in E. cbn [threads] in E. destruct i as [|i]; cbn [nth_error] in E.
  - injection E as <-. change (todo got) with (Acq Pool Shared :: skipn 11 retry_prog). cbv iota.
    assert (Gr : grantable pool (jammed pool) Pool Shared = false).
    { unfold grantable. rewrite Hs. cbn [mine got parked held map filter fst snd lock_eqb app]. rewrite concat_ones, repeat_length, Nat.ltb_irrefl. cbn [negb orb]. apply andb_false_r. }
    rewrite Gr. reflexivity.
  - rewrite nth_error_repeat in E by lia. injection E as <-. change (todo parked) with (Acq (ManifestFile 1) Exclusive :: skipn 9 retry_prog). cbv iota.
    assert (Gr : grantable pool (jammed pool) (ManifestFile 1) Exclusive = false).
    { unfold grantable. rewrite Hs. reflexivity. }
    rewrite Gr. reflexivity.
Qed.
End Jam.
