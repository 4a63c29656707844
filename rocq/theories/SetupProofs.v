(* Lemmas for C92. *)
From Coq Require Import String Ascii NArith List Bool Arith Lia DecimalString DecimalN DecimalPos DecimalFacts.
From Verif Require Import Base JobQueueModel WorkerSetModel RunModel RunSpec RunProofs RunInv RunNext RunLemmas RunParts RunTimers RunLift.
From Verif Require Import SetupModel SetupSpec.
Import ListNotations.
Open Scope string_scope.

(* ---- decimal texts ---- *)

Lemma app_assoc_s (a b c : string) : ((a ++ b) ++ c)%string = (a ++ (b ++ c))%string.
Proof. induction a; cbn; congruence. Qed.
Lemma app_nil_s (a : string) : (a ++ "")%string = a.
Proof. induction a; cbn; congruence. Qed.

Lemma string_rev_ind (P : string -> Prop) : P "" -> (forall s c, P s -> P (s ++ String c "")) -> forall s, P s.
Proof.
  intros H0 H1 s. assert (forall b a, P a -> P (a ++ b)) as K.
  { induction b as [|c b IH]; intros a Pa; [now rewrite app_nil_s|].
    replace (a ++ String c b) with ((a ++ String c "") ++ b) by now rewrite app_assoc_s. auto. }
  exact (K s "" H0).
Qed.

Lemma snoc_inj a b (c d : ascii) : (a ++ String c "")%string = (b ++ String d "")%string -> a = b /\ c = d.
Proof.
  revert b. induction a as [|x a IH]; intros [|y b] H; cbn in H.
  - injection H as <-. auto.
  - injection H as -> H. destruct b; discriminate.
  - injection H as -> H. destruct a; discriminate.
  - injection H as -> H. apply IH in H as [-> ->]. auto.
Qed.

Lemma snoc_not_empty a (c : ascii) : (a ++ String c "")%string <> "".
Proof. destruct a; discriminate. Qed.

Lemma digit_fun c d d' : digit c d -> digit c d' -> d = d'.
Proof. intros [_ A] [_ B]. rewrite A in B. lia. Qed.

Lemma decimal_not_empty s n : decimal s n -> s <> "".
Proof. intros []; [discriminate|apply snoc_not_empty]. Qed.

Lemma decimal_fun s n : decimal s n -> forall m, decimal s m -> n = m.
Proof.
  induction 1 as [c d D|s n c d H IH D]; intros m K; inversion K as [c' d' D' E1 E2|s' n' c' d' H' D' E1 E2]; subst.
  - eapply digit_fun; eauto.
  - exfalso. change (String c "") with ("" ++ String c "")%string in E1. apply snoc_inj in E1 as [-> _]. now apply decimal_not_empty in H'.
  - exfalso. change (String c' "") with ("" ++ String c' "")%string in E1. apply snoc_inj in E1 as [<- _]. now apply decimal_not_empty in H.
  - apply snoc_inj in E1 as [-> ->]. now rewrite (IH _ H'), (digit_fun _ _ _ D D').
Qed.

Lemma to_digit_spec c d : to_digit c = Some d <-> digit c d.
Proof.
  unfold to_digit, digit. generalize (N_of_ascii c). intros m. cbn zeta.
  destruct (N.leb_spec 48 m), (N.leb_spec m 57); cbn [andb]; split; intros E; try discriminate; try lia.
  - injection E as <-. lia.
  - f_equal. lia.
Qed.

Lemma digits_app a : forall acc b, digits acc (a ++ b) = match digits acc a with Some v => digits v b | None => None end.
Proof.
  induction a as [|c a IH]; intros acc b; cbn [digits append]; [reflexivity|].
  destruct (to_digit c); [|reflexivity]. cbn zeta. destruct (N.ltb_spec (acc * 10 + n) (2 ^ 64)); auto.
Qed.

Lemma digits_spec s : s <> "" -> forall n, digits 0 s = Some n <-> decimal s n /\ (n < 2 ^ 64)%N.
Proof.
  assert (K : forall s, (s = "" \/ forall n, digits 0 s = Some n <-> decimal s n /\ (n < 2 ^ 64)%N)).
  { apply string_rev_ind; [left; reflexivity|]. clear. intros s c IH. right. intros n.
    rewrite digits_app. cbn [digits]. destruct IH as [->|IH].
    - cbn [digits append]. destruct (to_digit c) as [d|] eqn:E.
      + apply to_digit_spec in E. cbn zeta. rewrite N.mul_0_l, N.add_0_l. destruct (N.ltb_spec d (2 ^ 64)) as [L|L].
        * split; [intros [= <-]; split; [now constructor|exact L]|]. intros [D _]. f_equal.
          apply (decimal_fun (String c "")); [now constructor|exact D].
        * destruct E as [E _]. assert (10 < 2 ^ 64)%N by reflexivity. lia.
      + split; [discriminate|]. intros [D _]. inversion D as [c' d' D' E1 E2|s' n' c' d' H' D' E1 E2]; subst.
        * apply to_digit_spec in D'. congruence.
        * change (String c "") with ("" ++ String c "")%string in E1. apply snoc_inj in E1 as [-> _]. now apply decimal_not_empty in H'.
    - assert (Q : forall n', decimal (s ++ String c "") n' -> s <> "" -> exists v, decimal s v /\ exists d, digit c d /\ n' = (10 * v + d)%N).
      { intros n' D N. inversion D as [c' d' D' E1 E2|s' v' c' d' H' D' E1 E2]; subst.
        - change (String c' "") with ("" ++ String c' "")%string in E1. apply snoc_inj in E1 as [<- _]. congruence.
        - apply snoc_inj in E1 as [-> ->]. eauto. }
      assert (NE : s <> ""). { intros ->. specialize (IH 0%N). cbn in IH. destruct IH as [IH _]. destruct (IH eq_refl) as [D _]. now apply decimal_not_empty in D. }
      destruct (digits 0 s) as [v|] eqn:E.
      + destruct (proj1 (IH v) eq_refl) as [Dv Lv]. destruct (to_digit c) as [d|] eqn:Ed.
        * apply to_digit_spec in Ed. cbn zeta. destruct (N.ltb_spec (v * 10 + d) (2 ^ 64)) as [L|L]; (split; [intros X; try discriminate|intros [D Ln]]).
          -- injection X as <-. split; [replace (v * 10 + d)%N with (10 * v + d)%N by lia; now constructor|exact L].
          -- apply Q in D as (v' & D1 & d' & D2 & ->); [|exact NE]. rewrite (decimal_fun _ _ Dv _ D1), (digit_fun _ _ _ Ed D2). f_equal. lia.
          -- apply Q in D as (v' & D1 & d' & D2 & ->); [|exact NE]. rewrite (decimal_fun _ _ Dv _ D1), (digit_fun _ _ _ Ed D2) in L. lia.
        * split; [discriminate|]. intros [D _]. apply Q in D as (v' & _ & d' & D2 & _); [|exact NE]. apply to_digit_spec in D2. congruence.
      + split; [discriminate|]. intros [D L]. apply Q in D as (v' & D1 & d' & D2 & ->); [|exact NE].
        assert (None = Some v') as X by (apply IH; split; [exact D1|lia]). discriminate. }
  intros N. destruct (K s) as [->|H]; [congruence|exact H].
Qed.

Lemma first_digit s n : decimal s n -> exists c d s', s = String c s' /\ digit c d.
Proof.
  induction 1 as [c d D|s n c d H (c' & d' & s' & -> & D') D]; [exists c, d, ""; auto|].
  exists c', d', (s' ++ String c "")%string. auto.
Qed.

Lemma parse_nonzero_spec s n : parse_nonzero s = Some n <->
  (exists t, (s = t \/ s = ("+" ++ t)%string) /\ decimal t n) /\ (0 < n < 2 ^ 64)%N.
Proof.
  assert (B : forall body, (match body with "" => None | _ => match digits 0 body with Some n => if (n =? 0)%N then None else Some n | None => None end end = Some n)
    <-> decimal body n /\ (0 < n < 2 ^ 64)%N).
  { intros body. destruct body as [|c b] eqn:Eb; [split; [discriminate|intros [D _]; now apply decimal_not_empty in D]|].
    rewrite <- Eb. assert (NE : body <> "") by (subst; discriminate). pose proof (digits_spec body NE) as DS.
    destruct (digits 0 body) as [v|] eqn:E.
    - destruct (N.eqb_spec v 0) as [->|Nz].
      + split; [discriminate|]. intros [D [L1 L2]]. destruct (DS n) as [_ X].
        assert (Some 0%N = Some n) as Y by (apply X; auto). injection Y as <-. lia.
      + split; [intros [= <-]|intros [D [L1 L2]]].
        * destruct (DS v) as [X _]. destruct (X eq_refl). split; [auto|lia].
        * destruct (DS n) as [_ X]. now apply X.
    - split; [discriminate|]. intros [D [L1 L2]]. destruct (DS n) as [_ X]. discriminate X. auto. }
  unfold parse_nonzero. cbn zeta. rewrite B.
  split.
  - intros [D L]. split; [|exact L]. 
    destruct s as [|[[] [] [] [] [] [] [] []] s']; eauto. exists s'. split; [right; reflexivity|exact D].
  - intros [(t & [-> | ->] & D) L]; (split; [|exact L]).
    + destruct (first_digit _ _ D) as (c & d & s' & -> & [D1 D2]).
      destruct c as [[] [] [] [] [] [] [] []]; try exact D. assert (43 = 48 + d)%N as X by exact D2. lia.
    + exact D.
Qed.

Lemma pos_acc u : forall s p, decimal s (Npos p) -> decimal (s ++ NilEmpty.string_of_uint u) (Npos (Pos.of_uint_acc u p)).
Proof.
  induction u as [|u IH|u IH|u IH|u IH|u IH|u IH|u IH|u IH|u IH|u IH]; intros s p D; cbn [NilEmpty.string_of_uint Pos.of_uint_acc];
    [now rewrite app_nil_s|..].
  all: match goal with |- decimal (?s0 ++ String ?c ?r) _ => replace (s0 ++ String c r)%string with ((s0 ++ String c "") ++ r)%string by now rewrite app_assoc_s end.
  all: apply IH.
  all: match goal with D : decimal ?s0 (N.pos ?p0) |- decimal (?s0 ++ String ?c "") (N.pos ?q) =>
    let d := eval vm_compute in (N_of_ascii c - 48)%N in
    replace (N.pos q) with (10 * N.pos p0 + d)%N by lia; constructor; [exact D|split; reflexivity] end.
Qed.

Lemma zero_acc u : forall s, decimal s 0 -> decimal (s ++ NilEmpty.string_of_uint u) (N.of_uint u).
Proof.
  unfold N.of_uint. induction u as [|u IH|u IH|u IH|u IH|u IH|u IH|u IH|u IH|u IH|u IH]; intros s D; cbn [NilEmpty.string_of_uint Pos.of_uint];
    [now rewrite app_nil_s|..].
  all: match goal with |- decimal (?s0 ++ String ?c ?r) _ => replace (s0 ++ String c r)%string with ((s0 ++ String c "") ++ r)%string by now rewrite app_assoc_s end.
  1: apply IH. 2-10: apply pos_acc.
  all: match goal with D : decimal ?s0 0 |- decimal (?s0 ++ String ?c "") ?q =>
    let d := eval vm_compute in (N_of_ascii c - 48)%N in
    change q with (10 * 0 + d)%N; constructor; [exact D|split; reflexivity] end.
Qed.

Lemma uint_decimal u : u <> Decimal.Nil -> decimal (NilEmpty.string_of_uint u) (N.of_uint u).
Proof.
  unfold N.of_uint. intros NE. destruct u as [|u|u|u|u|u|u|u|u|u|u]; [congruence|..]; cbn [NilEmpty.string_of_uint Pos.of_uint].
  1: match goal with |- decimal (String ?c ?r) _ => change (String c r) with (String c "" ++ r)%string end; apply (zero_acc u).
  2-10: match goal with |- decimal (String ?c ?r) _ => change (String c r) with (String c "" ++ r)%string end; apply pos_acc.
  all: constructor; split; reflexivity.
Qed.

Lemma dec_decimal n : decimal (dec n) n.
Proof.
  unfold dec. replace n with (N.of_uint (N.to_uint n)) at 2 by apply DecimalN.Unsigned.of_to.
  apply uint_decimal. destruct n as [|p]; [discriminate|]. apply DecimalPos.Unsigned.to_uint_nonnil.
Qed.

Lemma dec_inj a b : dec a = dec b -> a = b.
Proof. intros E. apply (decimal_fun (dec a)); [apply dec_decimal|rewrite E; apply dec_decimal]. Qed.

(* ---- the runners of a pool ---- *)

Lemma tags_of_pool c : (N.of_nat (c_runners c) < 2 ^ 32)%N ->
  map r_tag (pool c) = runners_of (N.to_nat (c_worker c)) (c_runners c).
Proof.
  intros L. unfold pool, runners_of. rewrite map_map. apply map_ext_in. intros i I. apply in_seq in I. cbn.
  unfold entity_runner, as_u32. rewrite N.mod_small by lia. now rewrite Nnat.Nat2N.id.
Qed.

Lemma pool_nth c k ru : nth_error (pool c) k = Some ru -> k < c_runners c /\ ru = set_up c (S k).
Proof.
  unfold pool. rewrite nth_error_map. intros H.
  destruct (nth_error (seq 1 (c_runners c)) k) as [i|] eqn:E; [|discriminate]. injection H as <-.
  assert (k < c_runners c) as L. { rewrite <- (seq_length (c_runners c) 1). apply nth_error_Some. congruence. }
  split; [exact L|]. rewrite (nth_error_nth' _ 0) in E by (rewrite seq_length; exact L). rewrite seq_nth in E by exact L.
  injection E as <-. reflexivity.
Qed.

Lemma first_only c : filter r_manifest (pool c) =
  if some_runner_should_generate_manifest (c_assigned c) then firstn 1 (pool c) else [].
Proof.
  unfold pool. destruct (c_runners c) as [|n]; [cbn; now destruct (some_runner_should_generate_manifest _)|].
  cbn [seq map filter firstn].
  assert (K : forall l, Forall (fun i => 2 <= i) l -> filter r_manifest (map (set_up c) l) = []).
  { induction 1 as [|i l L H IH]; [reflexivity|]. cbn [map filter]. rewrite IH.
    replace (r_manifest (set_up c i)) with false; [reflexivity|]. cbn. destruct i as [|[|i]]; [lia|lia|]. cbn. now rewrite andb_false_r. }
  rewrite K by (apply Forall_forall; intros i I; apply in_seq in I; lia).
  cbn. rewrite andb_true_r. now destruct (some_runner_should_generate_manifest (c_assigned c)).
Qed.

(* ---- what a runner is told again ---- *)
Open Scope list_scope.
Section Runs.
Context {T M : Type}.
Implicit Types (st : state T M) (r : run_id).

Lemma retry_in_history st r : reachable st -> forall h1 h2 r' e work,
  history st r = h1 ++ ORetry r' e (RManifest work true) :: h2 ->
  forall k e' ts w p x, In (OWork k r e' ts w p) h1 -> en_tag e' = en_tag e -> In x ts -> In x work.
Proof.
  intros HR. apply (history_ind r (fun _ h => forall h1 h2 r' e work, h = h1 ++ ORetry r' e (RManifest work true) :: h2 ->
    forall k e' ts w p x, In (OWork k r e' ts w p) h1 -> en_tag e' = en_tag e -> In x ts -> In x work)); auto.
  - intros [|]; discriminate.
  - intros st0 os o' HR0 IH He h1 h2 r' e work Heq k e' ts w p x HI HT HX.
    apply split_snoc in Heq as [(h2' & Heq & _)|(l & -> & Heq)]; [eauto|].
    assert (Hin : In (ORetry r' e (RManifest work true)) os) by (rewrite Heq; apply in_app_iff; simpl; auto).
    destruct He; simpl in Hin; repeat match goal with H : _ \/ _ |- _ => destruct H as [H|H] end; try contradiction; try discriminate.
    injection Hin as -> -> ->.
    destruct l as [|? [|]]; [|discriminate|discriminate]. rewrite app_nil_r in HI.
    eapply (retry_has_all st0 r' e work k e' ts w p x); auto.
    + unfold step, history. rewrite H. rewrite H0. simpl. rewrite filter_app. simpl. unfold about. simpl. now rewrite Nat.eqb_refl.
    + unfold history in HI. apply filter_In in HI as [HI _]. exact HI.
Qed.

(* the run that an answer in the history of a run is about *)
Lemma history_run st r o : In o (history st r) -> about r o = true.
Proof. intros H. now apply filter_In in H. Qed.

Lemma generators_counted (h : list (obs T M)) cs : assigned_in h = map c_assigned cs ->
  List.length (filter r_manifest (flat_map pool cs)) <= count told_to_generate h.
Proof.
  revert cs. induction h as [|o h IH]; intros cs E.
  - destruct cs; [cbn; lia|discriminate].
  - unfold count. cbn [filter]. 
    assert (Q : (exists k d p, o = OAssigned p (AssignedRun k d)) \/ (assigned_in (o :: h) = assigned_in h)).
    { destruct o as [p a| | | | | | | | | | | |]; try (right; reflexivity). destruct a; eauto; right; reflexivity. }
    destruct Q as [(k & d & p & ->)|Q].
    + cbn in E. destruct cs as [|c cs]; [discriminate|]. cbn [map] in E. injection E as E1 E2.
      cbn [flat_map]. rewrite filter_app, app_length, first_only, <- E1. specialize (IH _ E2). unfold count in IH.
      destruct k as [[]|]; cbn [some_runner_should_generate_manifest told_to_generate]; cbn [List.length]; [rewrite firstn_length|..]; cbn [List.length]; lia.
    + rewrite Q in E. specialize (IH _ E). unfold count in IH. destruct (told_to_generate o); cbn [List.length]; lia.
Qed.

End Runs.
