From Verif Require Import Base AuthModel AuthSpec AuthProofs UtilModel UtilSpec UtilProofs.
From Coq Require Import NArith.

(* ---- C50 ---- *)

(* any sequence of operations on a new map gives the answers of a finite map *)
Theorem C50_vec_map : forall (K V : Type) (keqb : K -> K -> bool), (forall a b, reflect (a = b) (keqb a b)) ->
  forall os : list (@vm_op K V), exists m, session (fun _ => None) os (snd (vm_run keqb [] os)) m.
Proof.
  intros K V keqb Hk os. destruct (run_ok keqb Hk os (fun _ => None) []) as (m & S & _); [|now exists m].
  split; [constructor|reflexivity].
Qed.

(* a map collected from pairs binds each key to its last value *)
Theorem C50_collect : forall (K V : Type) (keqb : K -> K -> bool), (forall a b, reflect (a = b) (keqb a b)) ->
  forall ps : list (K * V), exists m, lists m (vm_from_iter keqb ps) /\
  forall k v, m k = Some v <-> exists a b, ps = a ++ (k, v) :: b /\ ~ In k (map fst b).
Proof.
  intros K V keqb Hk ps. unfold vm_from_iter. induction ps as [|[k0 v0] ps IH] using rev_ind.
  - exists (fun _ => None). split; [split; [constructor|intros; split; [intros []|discriminate]]|].
    intros k v. split; [discriminate|]. intros ([|] & b & X & _); discriminate X.
  - destruct IH as (m & L & Hm). rewrite fold_left_app. cbn [fold_left fst snd].
    set (l := fold_left (fun m p => fst (vm_insert keqb (fst p) (snd p) m)) ps []) in *.
    destruct (step_ok keqb Hk m l (OpInsert k0 v0) (lists_rep keqb Hk m l L)) as (m' & A & R).
    cbn [vm_step] in A, R. destruct (vm_insert keqb k0 v0 l) as [l' old]. cbn [fst snd] in *.
    exists m'. split; [now apply (rep_lists keqb Hk)|]. cbn [answers] in A. destruct A as (_ & A1 & A2).
    intros k v. destruct (Hk k k0) as [->|N].
    + rewrite A1. split.
      * intros X; injection X as <-. exists ps, []. auto.
      * intros (a & b & X & N). destruct b as [|y b] using rev_ind.
        -- apply app_inj_tail in X as [_ X]. congruence.
        -- exfalso. apply N. rewrite map_app, in_app_iff. right. rewrite app_comm_cons, app_assoc in X.
           apply app_inj_tail in X as [_ <-]. now left.
    + rewrite (A2 _ N), Hm. split.
      * intros (a & b & -> & Nb). exists a, (b ++ [(k0, v0)]). split; [now rewrite <- app_assoc|].
        rewrite map_app, in_app_iff. cbn [map fst In]. intuition congruence.
      * intros (a & b & X & Nb). destruct b as [|y b] using rev_ind.
        -- apply app_inj_tail in X as [_ X]. congruence.
        -- rewrite app_comm_cons, app_assoc in X. apply app_inj_tail in X as [-> <-]. exists a, b. split; [reflexivity|].
           intros I. apply Nb. rewrite map_app, in_app_iff. now left.
Qed.

Example C50_example : snd (vm_run Nat.eqb [] [OpInsert 1 10; OpInsert 2 20; OpInsert 1 11; OpRemove 1; OpGet 2; OpGet 1; OpLen; OpIter; OpContains 2; OpIsEmpty]) =
  [AnsValue None; AnsValue None; AnsValue (Some 10); AnsValue (Some 11); AnsValue (Some 20); AnsValue None; AnsNum 1; AnsList [(2, 20)]; AnsBool true; AnsBool false].
Proof. reflexivity. Qed.

(* ---- C51 ---- *)

(* the delays of a backoff that starts at or below its maximum: they double (or stay), never
   decrease, never exceed the maximum; computing them never fails *)
Theorem C51_delays : forall (e : exp_decay) n,
  (ed_duration e <= ed_max e)%N -> (1 <= ed_multiplier e)%N -> (ed_max e * ed_multiplier e <= DURATION_MAX)%N ->
  exists ds, delays n e = Some ds /\ length ds = n /\
  forall i d, nth_error ds i = Some d ->
    d = N.min (ed_max e) (ed_duration e * ed_multiplier e ^ N.of_nat i) /\ (d <= ed_max e)%N /\
    forall d', nth_error ds (S i) = Some d' -> (d <= d')%N.
Proof.
  intros e n H1 H2 H3. exists (map (delay_spec e) (seq 0 n)). rewrite (delays_spec n e H1 H2 H3).
  split; [reflexivity|]. split; [now rewrite map_length, seq_length|]. intros i d X.
  assert (G : forall i d, nth_error (map (delay_spec e) (seq 0 n)) i = Some d -> d = delay_spec e i).
  { intros j x J. rewrite nth_error_map in J. destruct (nth_error (seq 0 n) j) as [y|] eqn:Y; [|discriminate].
    assert (L : j < n). { assert (K : nth_error (seq 0 n) j <> None) by congruence. apply nth_error_Some in K. now rewrite seq_length in K. }
    apply nth_error_nth with (d := 0) in Y. rewrite seq_nth in Y by exact L. simpl in Y. subst. injection J as <-. reflexivity. }
  apply G in X as ->. split; [reflexivity|]. split; [apply N.le_min_l|]. intros d' X. apply G in X as ->.
  unfold delay_spec. rewrite Nat2N.inj_succ, N.pow_succ_r'. set (q := (ed_multiplier e ^ N.of_nat i)%N).
  assert (q <= ed_multiplier e * q)%N by nia. assert (ed_duration e * q <= ed_duration e * (ed_multiplier e * q))%N by nia. lia.
Qed.

(* a backoff that starts above zero and at least doubles reaches its maximum and stays there *)
Theorem C51_maximum_reached : forall (e : exp_decay),
  (1 <= ed_duration e <= ed_max e)%N -> (2 <= ed_multiplier e)%N -> (ed_max e * ed_multiplier e <= DURATION_MAX)%N ->
  forall n ds i d, delays n e = Some ds -> nth_error ds i = Some d -> (ed_max e <= 2 ^ N.of_nat i)%N -> d = ed_max e.
Proof.
  intros e H1 H2 H3 n ds i d D X B. destruct (C51_delays e n) as (ds' & D' & _ & G); [lia|lia|lia|].
  assert (ds' = ds) by congruence. subst ds'. destruct (G i d X) as (-> & _). apply N.min_l.
  assert (2 ^ N.of_nat i <= ed_multiplier e ^ N.of_nat i)%N by (apply N.pow_le_mono_l; lia). nia.
Qed.

(* a constant backoff is constant *)
Theorem C51_constant : forall d n, (d <= DURATION_MAX)%N -> delays n (ed_constant d) = Some (repeat d n).
Proof.
  intros d n H. rewrite delays_spec; cbn [ed_constant ed_duration ed_multiplier ed_max]; [|lia|lia|lia].
  f_equal. induction n as [|n IH]; [reflexivity|]. rewrite seq_S, map_app, IH. cbn [map repeat Nat.add].
  unfold delay_spec. cbn [ed_constant ed_duration ed_multiplier ed_max]. rewrite N.pow_1_l, N.mul_1_r, N.min_id. symmetry. apply repeat_cons.
Qed.

(* outside: a backoff that starts above its maximum first waits for longer than it *)
Theorem C51_start_above_maximum : exists e ds, e = ed_quadratic 5 3 /\ delays 3 e = Some ds /\ ds = [5; 3; 3]%N.
Proof. eexists _, _. split; [reflexivity|]. split; reflexivity. Qed.

(* retrying makes attempts 1, 2, ... one at a time, at most max_attempts of them (but at
   least one), sleeps between them, and returns the first success or the last error *)
Theorem C51_retry : forall (R E : Type) (op : nat -> R + E) max_attempts fuel, Nat.max 1 max_attempts <= fuel ->
  let r := retry_n fuel max_attempts op in
  exists n, 1 <= n <= Nat.max 1 max_attempts /\ rt_attempts r = seq 1 n /\ rt_sleeps r = n - 1 /\ rt_result r = Some (op n) /\
  (first_success op n n \/ n = Nat.max 1 max_attempts /\ forall j, 1 <= j <= n -> exists e, op j = inr e).
Proof.
  intros R E op max fuel F r. destruct (retry_loop_spec op max fuel 0) as (n & B & A1 & A2 & A3 & A4 & A5); [lia|lia|].
  exists n. fold (retry_n fuel max op) in *. unfold r. rewrite Nat.sub_0_r in *. split; [lia|]. split; [exact A1|]. split; [exact A2|]. split; [exact A3|].
  destruct (op n) as [v|e] eqn:O.
  - left. split; [lia|]. split; [now exists v|]. intros j Hj. apply A4. lia.
  - right. destruct A5 as [[v A5]|A5]; [discriminate|]. split; [lia|]. intros j Hj. destruct (Nat.eq_dec j n) as [->|]; [now exists e|apply A4; lia].
Qed.

Example C51_example :
  delays 8 (ed_quadratic 1 40) = Some [1; 2; 4; 8; 16; 32; 40; 40]%N /\
  rt_attempts (retry_n 5 5 (fun i => if i <? 3 then inr i else inl i)) = [1; 2; 3] /\
  rt_result (retry_n 2 2 (fun i => if i <? 3 then inr i else inl i)) = Some (inr 2).
Proof. repeat split. Qed.

(* ---- C55 ---- *)

(* a request is attempted at most six times and what happened last is returned; all earlier
   attempts met a server error or rate limiting, and the last one did only if it is the sixth *)
Theorem C55_bounded_retries : forall (B E : Type) (server : nat -> reply B + E) fuel, 6 <= fuel ->
  let s := send_request_with_decay fuel server in
  1 <= sn_attempts s <= 6 /\ sn_outcome s = Some (server (sn_attempts s)) /\
  (forall j, 1 <= j < sn_attempts s -> retryable (server j)) /\
  (retryable (server (sn_attempts s)) -> sn_attempts s = 6).
Proof.
  intros B E server fuel F s. unfold s, send_request_with_decay, DEFAULT_REQUEST_ATTEMPTS.
  destruct (send_loop_spec server 6 DEFAULT_REQUEST_DECAY_MUL fuel 0 DEFAULT_REQUEST_DECAY) as (A1 & A2 & A3 & A4 & _); [lia|lia|].
  split; [lia|]. split; [exact A2|]. split; [intros j Hj; apply A3; lia|].
  intros K. destruct (Nat.eq_dec (sn_attempts (send_loop fuel 0 6 DEFAULT_REQUEST_DECAY DEFAULT_REQUEST_DECAY_MUL server)) 6) as [X|X]; [exact X|].
  exfalso. apply A4; [lia|exact K].
Qed.

(* it waits 5, 10, 20, ... seconds between attempts: two minutes and 35 seconds at most *)
Theorem C55_waits : forall (B E : Type) (server : nat -> reply B + E) fuel, 6 <= fuel ->
  let s := send_request_with_decay fuel server in
  sn_sleeps s = firstn (sn_attempts s - 1) [5; 10; 20; 40; 80]%N /\ (fold_right N.add 0 (sn_sleeps s) <= 155)%N.
Proof.
  intros B E server fuel F s. unfold s, send_request_with_decay, DEFAULT_REQUEST_ATTEMPTS.
  destruct (send_loop_spec server 6 DEFAULT_REQUEST_DECAY_MUL fuel 0 DEFAULT_REQUEST_DECAY) as (A1 & _ & _ & _ & A5); [lia|lia|].
  rewrite A5. set (n := sn_attempts _) in *. clearbody n. clear - A1.
  assert (X : n = 1 \/ n = 2 \/ n = 3 \/ n = 4 \/ n = 5 \/ n = 6) by lia.
  destruct X as [->|[->|[->|[->|[->| ->]]]]]; split; try reflexivity; vm_compute; discriminate.
Qed.

Example C55_example : let down := fun _ : nat => @inl (reply nat) nat {| rp_status := 503; rp_body := 7 |} in
  sn_attempts (send_request_with_decay 6 down) = 6 /\ retryable (down 1) /\
  sn_attempts (send_request_with_decay 6 (fun i => if i <? 3 then down i else inl {| rp_status := 404; rp_body := 8 |})) = 3.
Proof. cbv zeta. repeat split. exists {| rp_status := 503; rp_body := 7 |}. split; [reflexivity|]. simpl. lia. Qed.

(* ---- C61 ---- *)

(* a hosted configuration is accepted only for the run that was asked for, with a
   well-formed token taken from the URL, and an address that is not ambiguous *)
Theorem C61_hosted_config : forall run_id r addr id tok cert kind,
  from_api_response run_id r = inl (CfgSuccess addr id tok cert kind) <->
  id = run_id /\ token tok /\ exists queries text,
  r = HSuccess (Some [addr]) queries cert kind /\
  query_get key_token queries = Some text /\ parse_user text = Some tok /\ query_get key_run_id queries = Some run_id.
Proof.
  intros run_id r addr id tok cert kind. split.
  - destruct r as [[[|one [|two l]]|] queries cert' kind'|kind' e]; cbn [from_api_response]; try discriminate.
    destruct (query_get key_token queries) as [text|] eqn:T; [|discriminate].
    destruct (parse_user text) as [t|] eqn:P; [|discriminate].
    destruct (query_get key_run_id queries) as [res|] eqn:I; [|discriminate].
    destruct (bytes_eqb run_id res) eqn:E; [|discriminate]. apply bytes_eqb_spec in E as <-.
    intros X; injection X as -> -> -> -> ->. split; [reflexivity|]. split.
    + apply user_parse in P. now destruct P as (x & _ & P & _).
    + eauto 8.
  - intros (-> & _ & queries & text & -> & T & P & I). cbn [from_api_response]. rewrite T, P, I.
    now rewrite (proj2 (bytes_eqb_spec run_id run_id) eq_refl).
Qed.

(* of several values of a query parameter the last one counts *)
Theorem C61_last_value_counts : forall k qs v, query_get k qs = Some v <-> exists a b, qs = a ++ (k, v) :: b /\ ~ In k (map fst b).
Proof. exact query_get_spec. Qed.

(* what is not supported is said, with the service's own message *)
Theorem C61_unsupported : forall run_id r kind e,
  from_api_response run_id r = inl (CfgUnsupported kind e) <-> r = HUnsupported kind e.
Proof.
  intros run_id r kind e. split; [|now intros ->].
  destruct r as [[[|one [|two l]]|] queries cert' kind'|kind' e']; cbn [from_api_response]; try discriminate; [|congruence].
  destruct (query_get key_token queries) as [text|]; [|discriminate].
  destruct (parse_user text) as [t|]; [|discriminate].
  destruct (query_get key_run_id queries) as [res|]; [|discriminate]. destruct (bytes_eqb run_id res); discriminate.
Qed.

Example C61_example :
  from_api_response [49] (HSuccess (Some [8]) [(key_run_id, [49]); (key_token, show_user (repeat 65 30))] None 0) = inl (CfgSuccess 8 [49] (repeat 65 30) None 0) /\
  from_api_response [49] (HSuccess (Some [8]) [(key_run_id, [50]); (key_token, show_user (repeat 65 30))] None 0) = inr EOther.
Proof. split; reflexivity. Qed.

Print Assumptions C50_vec_map.
Print Assumptions C50_collect.
Print Assumptions C51_delays.
Print Assumptions C51_maximum_reached.
Print Assumptions C51_constant.
Print Assumptions C51_start_above_maximum.
Print Assumptions C51_retry.
Print Assumptions C55_bounded_retries.
Print Assumptions C55_waits.
Print Assumptions C61_hosted_config.
Print Assumptions C61_last_value_counts.
Print Assumptions C61_unsupported.
