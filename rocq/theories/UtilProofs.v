From Verif Require Import Base AuthModel AuthProofs UtilModel UtilSpec.
From Coq Require Import NArith.

Section vec_map.
Context {K V : Type}.
Variable keqb : K -> K -> bool.
Hypothesis keqb_spec : forall a b, reflect (a = b) (keqb a b).
Notation lk k l := (vm_get (V := V) keqb k l).

Lemma get_cons k k0 v0 (l : list (K * V)) : lk k ((k0, v0) :: l) = if keqb k0 k then Some v0 else lk k l.
Proof. unfold vm_get. cbn [find fst]. now destruct (keqb k0 k). Qed.

Lemma get_in k (l : list (K * V)) : NoDup (map fst l) -> forall v, lk k l = Some v <-> In (k, v) l.
Proof.
  induction l as [|[k0 v0] l IH]; intros ND v.
  - split; [discriminate|intros []].
  - rewrite get_cons. inversion ND as [|? ? H ND']; subst. cbn [map fst] in *. destruct (keqb_spec k0 k) as [->|N].
    + split; [intros E; injection E as ->; now left|]. intros [E|E]; [congruence|].
      exfalso. apply H. apply in_map_iff. now exists (k, v).
    + rewrite (IH ND'). split; [now right|]. intros [E|E]; [congruence|exact E].
Qed.

Lemma get_none k (l : list (K * V)) : lk k l = None <-> ~ In k (map fst l).
Proof.
  induction l as [|[k0 v0] l IH].
  - split; [auto|reflexivity].
  - rewrite get_cons. cbn [map fst In]. destruct (keqb_spec k0 k) as [->|N].
    + split; [discriminate|]. intros H. contradiction H. now left.
    + rewrite IH. split; [intros H [E|E]; auto|auto].
Qed.

Lemma position_spec k (l : list (K * V)) :
  match position keqb k l with
  | Some i => exists a v b, l = a ++ (k, v) :: b /\ length a = i /\ ~ In k (map fst a)
  | None => ~ In k (map fst l)
  end.
Proof.
  induction l as [|[k0 v0] l IH]; cbn [position].
  - auto.
  - destruct (keqb_spec k0 k) as [->|N].
    + exists [], v0, l. simpl. auto.
    + destruct (position keqb k l) as [i|]; cbn [option_map].
      * destruct IH as (a & v & b & -> & <- & H). exists ((k0, v0) :: a), v, b. simpl. repeat split. intros [E|E]; auto.
      * cbn [map fst In]. intros [E|E]; auto.
Qed.

Lemma upd_mid {A} (a b : list A) x y : upd (length a) y (a ++ x :: b) = a ++ y :: b.
Proof. induction a; simpl; [reflexivity|now rewrite IHa]. Qed.

Lemma nth_mid {A} (a b : list A) x : nth_error (a ++ x :: b) (length a) = Some x.
Proof. induction a; simpl; auto. Qed.

(* removing by swapping leaves the other elements *)
Lemma swap_remove_perm {A} (a b : list A) x : Permutation (a ++ b) (swap_remove (length a) (a ++ x :: b)).
Proof.
  unfold swap_remove. destruct b as [|y b] using rev_ind.
  - rewrite rev_app_distr. cbn [rev app]. rewrite upd_mid. rewrite removelast_last. now rewrite app_nil_r.
  - clear IHb. replace (a ++ x :: b ++ [y]) with ((a ++ x :: b) ++ [y]) by (now rewrite <- app_assoc).
    rewrite rev_app_distr. cbn [rev app]. rewrite <- app_assoc. cbn [app]. rewrite upd_mid.
    replace (a ++ y :: b ++ [y]) with ((a ++ y :: b) ++ [y]) by (now rewrite <- app_assoc).
    rewrite removelast_last. apply Permutation_app_head. symmetry. apply Permutation_cons_append.
Qed.

Definition rep (m : @fmap K V) (l : list (K * V)) : Prop := NoDup (map fst l) /\ forall k, m k = lk k l.

Lemma rep_lists m l : rep m l -> lists m l.
Proof.
  intros [ND E]. split; [exact ND|]. intros k v. rewrite E. symmetry. now apply get_in.
Qed.

Lemma lists_rep m l : lists m l -> rep m l.
Proof.
  intros [ND E]. split; [exact ND|]. intros k. destruct (lk k l) as [v|] eqn:G.
  - apply get_in in G; [|exact ND]. now apply E.
  - destruct (m k) as [v|] eqn:M; [|reflexivity]. apply E in M. apply get_none in G. contradiction G. apply in_map_iff. now exists (k, v).
Qed.

Lemma step_ok m l o : rep m l -> exists m', answers m o (snd (vm_step keqb l o)) m' /\ rep m' (fst (vm_step keqb l o)).
Proof.
  intros R. assert (L := rep_lists m l R). destruct R as [ND E]. destruct o as [k v|k|k|k| | |]; cbn [vm_step].
  - unfold vm_insert. assert (P := position_spec k l). destruct (position keqb k l) as [i|].
    + destruct P as (a & v0 & b & -> & <- & N). rewrite upd_mid, nth_mid. cbn [option_map snd fst].
      exists (fun k' => if keqb k k' then Some v else m k'). split.
      * cbn [answers]. split.
        -- f_equal. symmetry. apply L. apply in_elt.
        -- split; [destruct (keqb_spec k k); congruence|]. intros k' N'. destruct (keqb_spec k k'); congruence.
      * apply lists_rep. split.
        -- rewrite !map_app in *. exact ND.
        -- intros k' v'. destruct (keqb_spec k k') as [<-|N'].
           ++ rewrite in_app_iff. cbn [In]. split.
              ** intros [H|[H|H]]; [contradiction N; apply in_map_iff; now exists (k, v')|congruence|].
                 exfalso. rewrite map_app in ND. apply NoDup_remove_2 in ND. apply ND. apply in_app_iff. right. apply in_map_iff. now exists (k, v').
              ** intros H; injection H as ->. auto.
           ++ destruct L as [_ L]. rewrite <- L. rewrite !in_app_iff. cbn [In].
              split; (intros [H|[H|H]]; [auto|congruence|auto]).
    + cbn [fst snd]. exists (fun k' => if keqb k k' then Some v else m k'). split.
      * cbn [answers]. split; [rewrite E; apply get_none in P; now rewrite P|].
        split; [destruct (keqb_spec k k); congruence|]. intros k' N'. destruct (keqb_spec k k'); congruence.
      * apply lists_rep. split.
        -- rewrite map_app. cbn [map fst]. apply (Permutation_NoDup (l := k :: map fst l)); [apply Permutation_cons_append|]. now constructor.
        -- intros k' v'. rewrite in_app_iff. cbn [In]. destruct (keqb_spec k k') as [<-|N'].
           ++ split; [intros [H|[H|[]]]; [contradiction P; apply in_map_iff; now exists (k, v')|congruence]|intros H; injection H as ->; auto].
           ++ destruct L as [_ L]. rewrite <- L. split; [intros [H|[H|[]]]; [auto|congruence]|auto].
  - unfold vm_remove. assert (P := position_spec k l). destruct (position keqb k l) as [i|].
    + destruct P as (a & v0 & b & -> & <- & N). rewrite nth_mid. cbn [option_map snd fst].
      assert (S := swap_remove_perm a b (k, v0)). set (r := swap_remove (length a) (a ++ (k, v0) :: b)) in *. clearbody r.
      rewrite map_app in ND. cbn [map fst] in ND. assert (ND1 := NoDup_remove_1 _ _ _ ND). assert (ND2 := NoDup_remove_2 _ _ _ ND). rewrite <- map_app in ND1, ND2.
      exists (fun k' => if keqb k k' then None else m k'). split.
      * cbn [answers]. split; [f_equal; symmetry; apply L; apply in_elt|].
        split; [destruct (keqb_spec k k); congruence|]. intros k' N'. destruct (keqb_spec k k'); congruence.
      * apply lists_rep. split.
        -- apply (Permutation_NoDup (l := map fst (a ++ b))); [now apply Permutation_map|exact ND1].
        -- intros k' v'. assert (Hi : In (k', v') r <-> In (k', v') (a ++ b)) by (split; apply Permutation_in; auto using Permutation_sym).
           rewrite Hi. destruct (keqb_spec k k') as [<-|N'].
           ++ split; [|discriminate]. intros H. contradiction ND2. apply in_map_iff. now exists (k, v').
           ++ destruct L as [_ L]. rewrite <- L. rewrite !in_app_iff. cbn [In].
              split; [intros [H|H]; auto|intros [H|[H|H]]; [auto|congruence|auto]].
    + cbn [fst snd]. exists m. split; [|now split]. cbn [answers]. apply get_none in P. split; [now rewrite E, P|].
      split; [now rewrite E|auto].
  - exists m. split; [|now split]. cbn [answers snd]. now rewrite E.
  - exists m. split; [|now split]. cbn [answers snd]. split; [|auto]. eexists. split; [reflexivity|].
    unfold vm_contains. rewrite existsb_exists, E. destruct (lk k l) as [v|] eqn:G.
    + split; [discriminate|]. intros _. apply get_in in G; [|exact ND]. exists (k, v). split; [exact G|]. cbn [fst]. destruct (keqb_spec k k); congruence.
    + split; [|now intros X]. intros ((k' & v) & I & H). cbn [fst] in H. destruct (keqb_spec k' k) as [->|]; [|discriminate].
      apply get_none in G. contradiction G. apply in_map_iff. now exists (k, v).
  - exists m. split; [|now split]. cbn [answers snd]. split; [|auto]. now exists l.
  - exists m. split; [|now split]. cbn [answers snd]. split; [|auto]. eexists. split; [reflexivity|].
    destruct l as [|[k v] l].
    + split; [|auto]. intros _ k. now rewrite E.
    + split; [discriminate|]. intros H. exfalso. assert (X : m k = Some v) by (apply L; now left). congruence.
  - exists m. split; [|now split]. cbn [answers snd]. split; [|auto]. now exists l.
Qed.

Lemma run_ok os : forall m l, rep m l -> exists m', session m os (snd (vm_run keqb l os)) m' /\ rep m' (fst (vm_run keqb l os)).
Proof.
  induction os as [|o os IH]; intros m l R; cbn [vm_run].
  - exists m. split; [constructor|exact R].
  - destruct (step_ok m l o R) as (m1 & A & R1). destruct (vm_step keqb l o) as [l1 a]. cbn [fst snd] in *.
    destruct (IH m1 l1 R1) as (m2 & S & R2). destruct (vm_run keqb l1 os) as [l2 r]. cbn [fst snd] in *.
    exists m2. split; [econstructor; eauto|exact R2].
Qed.
End vec_map.

(* ---- backoff ---- *)
Open Scope N_scope.

(* the i-th delay *)
Definition delay_spec (e : exp_decay) (i : nat) : N := N.min (ed_max e) (ed_duration e * ed_multiplier e ^ N.of_nat i).

Lemma delays_spec n : forall e, ed_duration e <= ed_max e -> 1 <= ed_multiplier e ->
  ed_max e * ed_multiplier e <= DURATION_MAX ->
  delays n e = Some (map (delay_spec e) (seq 0 n)).
Proof.
  induction n as [|n IH]; intros e H1 H2 H3; cbn [delays seq map]; [reflexivity|].
  unfold next_duration. destruct (N.ltb_spec DURATION_MAX (ed_duration e * ed_multiplier e)) as [X|X]; [exfalso; nia|].
  set (e' := {| ed_duration := N.min (ed_max e) (ed_duration e * ed_multiplier e); ed_multiplier := ed_multiplier e; ed_max := ed_max e |}).
  rewrite IH; cbn [e' ed_duration ed_max ed_multiplier]; [|lia|exact H2|exact H3].
  cbn [option_map]. f_equal. f_equal.
  - unfold delay_spec. simpl N.of_nat. rewrite N.pow_0_r, N.mul_1_r. lia.
  - rewrite <- seq_shift, map_map. apply map_ext. intros i. unfold delay_spec. cbn [e' ed_duration ed_max ed_multiplier].
    rewrite Nat2N.inj_succ, N.pow_succ_r'. set (q := ed_multiplier e ^ N.of_nat i).
    assert (1 <= q). { unfold q. assert (ed_multiplier e ^ N.of_nat i <> 0) by (apply N.pow_nonzero; lia). lia. }
    rewrite N.mul_assoc. destruct (N.min_spec (ed_max e) (ed_duration e * ed_multiplier e)) as [[Z ->]|[Z ->]]; [|reflexivity].
    rewrite !N.min_l by nia. reflexivity.
Qed.
Close Scope N_scope.

(* ---- retries ---- *)
Section retry.
Context {R E : Type}.
Variable op : nat -> R + E.

Lemma retry_loop_spec max : forall fuel a, max - a <= fuel -> 1 <= fuel ->
  let r := retry_loop fuel a max op in
  exists n, a < n <= Nat.max (S a) max /\ rt_attempts r = seq (S a) (n - a) /\ rt_sleeps r = n - a - 1 /\ rt_result r = Some (op n) /\
    (forall j, a < j < n -> exists e, op j = inr e) /\
    ((exists v, op n = inl v) \/ max <= n).
Proof.
  induction fuel as [|f IH]; intros a Hf Hf1 r; [lia|]. unfold r. clear r. cbn [retry_loop].
  destruct (op (S a)) as [v|e] eqn:O.
  - exists (S a). cbn [rt_attempts rt_sleeps rt_result]. replace (S a - a) with 1 by lia. split; [lia|]. split; [reflexivity|]. split; [reflexivity|].
    split; [now rewrite O|]. split; [intros; lia|]. left. now exists v.
  - destruct (Nat.leb_spec max (S a)) as [L|L].
    + exists (S a). cbn [rt_attempts rt_sleeps rt_result]. replace (S a - a) with 1 by lia. split; [lia|]. split; [reflexivity|]. split; [reflexivity|].
      split; [now rewrite O|]. split; [intros; lia|]. now right.
    + cbn [rt_attempts rt_sleeps rt_result]. destruct (IH (S a)) as (n & B & A1 & A2 & A3 & A4 & A5); [lia|lia|].
      exists n. split; [lia|]. rewrite A1, A2, A3. split; [|split; [|split; [|split; [|exact A5]]]].
      * replace (n - a) with (S (n - S a)) by lia. reflexivity.
      * lia.
      * reflexivity.
      * intros j Hj. destruct (Nat.eq_dec j (S a)) as [->|]; [now exists e|]. apply A4. lia.
Qed.
End retry.

(* ---- hosted ---- *)
Section hosted.
Context {B E : Type}.
Variable server : nat -> reply B + E.

Lemma retryable_spec (r : reply B) :
  is_success (rp_status r) = false ->
  (is_server_error (rp_status r) || Nat.eqb (rp_status r) TOO_MANY_REQUESTS = true <-> retryable (E := E) (inl r)).
Proof.
  intros _. unfold is_server_error, retryable, TOO_MANY_REQUESTS.
  rewrite orb_true_iff, andb_true_iff, Nat.leb_le, Nat.ltb_lt, Nat.eqb_eq. split.
  - intros H. exists r. split; [reflexivity|]. tauto.
  - intros (r' & X & H). injection X as <-. tauto.
Qed.

Lemma success_not_retryable (r : reply B) : is_success (rp_status r) = true -> ~ retryable (E := E) (inl r).
Proof.
  unfold is_success. rewrite andb_true_iff, Nat.leb_le, Nat.ltb_lt. intros H (r' & X & K). injection X as <-. lia.
Qed.

Fixpoint doubling (d m : N) (n : nat) : list N := match n with 0 => [] | S n' => d :: doubling (d * m) m n' end.

Lemma send_loop_spec max mul : forall fuel a d, a < max -> max - a <= fuel ->
  let s := send_loop fuel a max d mul server in
  a < sn_attempts s <= max /\ sn_outcome s = Some (server (sn_attempts s)) /\
  (forall j, a < j < sn_attempts s -> retryable (server j)) /\
  (sn_attempts s < max -> ~ retryable (server (sn_attempts s))) /\
  sn_sleeps s = doubling d mul (sn_attempts s - a - 1).
Proof.
  induction fuel as [|f IH]; intros a d Ha Hf s; [lia|]. unfold s. clear s. cbn [send_loop].
  destruct (server (S a)) as [r|e] eqn:O.
  - destruct (is_success (rp_status r)) eqn:Su.
    + cbn [sn_attempts sn_outcome sn_sleeps]. split; [lia|]. rewrite O. split; [reflexivity|]. split; [intros; lia|]. split.
      * intros _. now apply success_not_retryable.
      * now replace (S a - a - 1) with 0 by lia.
    + destruct (is_server_error (rp_status r) || Nat.eqb (rp_status r) TOO_MANY_REQUESTS) eqn:Re.
      * destruct (Nat.eqb_spec (S a) max) as [M|M].
        -- cbn [sn_attempts sn_outcome sn_sleeps]. split; [lia|]. rewrite O. split; [reflexivity|]. split; [intros; lia|]. split; [lia|].
           now replace (S a - a - 1) with 0 by lia.
        -- destruct (IH (S a) (d * mul)%N) as (A1 & A2 & A3 & A4 & A5); [lia|lia|].
           cbn [sn_attempts sn_outcome sn_sleeps]. set (s := send_loop f (S a) max (d * mul) mul server) in *.
           split; [lia|]. split; [exact A2|]. split.
           ++ intros j Hj. destruct (Nat.eq_dec j (S a)) as [->|]; [rewrite O; now apply retryable_spec|apply A3; lia].
           ++ split; [exact A4|]. rewrite A5. replace (sn_attempts s - a - 1) with (S (sn_attempts s - S a - 1)) by lia. reflexivity.
      * cbn [sn_attempts sn_outcome sn_sleeps]. split; [lia|]. rewrite O. split; [reflexivity|]. split; [intros; lia|]. split.
        -- intros _ K. apply (retryable_spec _ Su) in K. congruence.
        -- now replace (S a - a - 1) with 0 by lia.
  - cbn [sn_attempts sn_outcome sn_sleeps]. split; [lia|]. rewrite O. split; [reflexivity|]. split; [intros; lia|]. split.
    + intros _ (r & X & _). discriminate X.
    + now replace (S a - a - 1) with 0 by lia.
Qed.
End hosted.

Lemma query_get_spec k qs v : query_get k qs = Some v <->
  exists a b, qs = a ++ (k, v) :: b /\ ~ In k (map fst b).
Proof.
  unfold query_get. induction qs as [|[k0 v0] qs IH] using rev_ind.
  - cbn [rev find option_map]. split; [discriminate|]. intros ([|] & b & X & _); discriminate X.
  - rewrite rev_app_distr. cbn [rev app find fst]. destruct (bytes_eqb k0 k) eqn:E.
    + apply bytes_eqb_spec in E as ->. cbn [option_map snd]. split.
      * intros X; injection X as ->. exists qs, []. auto.
      * intros (a & b & X & N). destruct b as [|y b] using rev_ind.
        -- apply app_inj_tail in X as [_ X]. congruence.
        -- clear IHb. exfalso. apply N. rewrite map_app, in_app_iff. right. rewrite app_comm_cons, app_assoc in X.
           apply app_inj_tail in X as [_ <-]. now left.
    + assert (K : k0 <> k) by (intros ->; rewrite (proj2 (bytes_eqb_spec k k) eq_refl) in E; discriminate).
      rewrite IH. split.
      * intros (a & b & -> & N). exists a, (b ++ [(k0, v0)]). split; [now rewrite <- app_assoc|].
        rewrite map_app, in_app_iff. cbn [map fst In]. intuition congruence.
      * intros (a & b & X & N). destruct b as [|y b] using rev_ind.
        -- apply app_inj_tail in X as [_ X]. congruence.
        -- clear IHb. rewrite app_comm_cons, app_assoc in X. apply app_inj_tail in X as [-> <-]. exists a, b. split; [reflexivity|].
           intros I. apply N. rewrite map_app, in_app_iff. now left.
Qed.
