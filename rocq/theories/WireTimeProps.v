(* When the time for a message runs out (C28). *)
From Verif Require Import Base JsonModel WireModel WireSpec WireTimeModel.
From Coq Require Import NArith.

Section Props.
Context (gz_decode : bytes -> option bytes).
Notation tstep := (tstep gz_decode).

(* The reader knows how long the message it is reading is. *)
Definition in_message (t : timed) : bool := match r_msg_size (w_reader (tm_world t)) with Some _ => true | None => false end.

(* In the history h, which led from t to t', the size of the message that is being read at its end was complete at
   the event at [since]: before it the reader was not in a message, after it it always was, and no call has returned. *)
Definition reading_since closed timeout (t : timed) (h : list (event * N)) (since : N) : Prop :=
  exists h1 n h2, h = h1 ++ (Bytes n, since) :: h2 /\
    in_message (run (tstep closed timeout) t h1) = false /\
    forall h3 h4, h2 = h3 ++ h4 ->
      let t' := run (tstep closed timeout) t (h1 ++ (Bytes n, since) :: h3) in
      in_message t' = true /\ w_out (tm_world t') = w_out (tm_world (run (tstep closed timeout) t h1)).

(* ---- proofs ---- *)
Definition waits (t : timed) : Prop := w_failed (tm_world t) = false.

Lemma prime_facts r : r_msg_size (prime r) = r_msg_size r /\ r_expires (prime r) = (match r_msg_size r with Some _ => true | None => r_expires r end).
Proof. unfold prime. destruct (r_msg_size r) as [[n b]|] eqn:E; cbn; auto. Qed.

Definition agree (r : reader) : Prop := r_expires r = match r_msg_size r with Some _ => true | None => false end.

(* one step of the reader, while no call has failed *)
Inductive moved (t t' : timed) (e : event) (now timeout : N) : Prop :=
| M_same : r_msg_size (w_reader (tm_world t')) = r_msg_size (w_reader (tm_world t)) -> w_out (tm_world t') = w_out (tm_world t) ->
    tm_deadline t' = tm_deadline t -> moved t t' e now timeout
| M_header n : e = Bytes n -> in_message t = false -> in_message t' = true -> w_out (tm_world t') = w_out (tm_world t) ->
    tm_deadline t' = (now + timeout)%N -> moved t t' e now timeout
| M_message : in_message t' = false -> moved t t' e now timeout.

Lemma agree_step closed timeout t e now : agree (w_reader (tm_world t)) -> waits t ->
  let t' := tstep closed timeout t (e, now) in
  (waits t' -> agree (w_reader (tm_world t')) /\ moved t t' e now timeout) /\
  (w_out (tm_world t') = w_out (tm_world t) \/ exists a, w_out (tm_world t') = w_out (tm_world t) ++ [a] /\
     (a = Error TimedOut -> e = Expire /\ in_message t = true /\ (tm_deadline t <= now)%N)).
Proof.
  intros A W. destruct t as [w d]. unfold waits, agree in *. cbn [tm_world tm_deadline] in *.
  assert (Q : tm_world {| tm_world := w; tm_deadline := d |} = w) by reflexivity.
  assert (DEL : forall k n, let t' := {| tm_world := deliver gz_decode w k;
        tm_deadline := if r_expires (w_reader (deliver gz_decode w k)) && negb (r_expires (w_reader w)) then (now + timeout)%N else d |} in
     (w_failed (deliver gz_decode w k) = false ->
       (r_expires (w_reader (deliver gz_decode w k)) = match r_msg_size (w_reader (deliver gz_decode w k)) with Some _ => true | None => false end) /\
       moved {| tm_world := w; tm_deadline := d |} t' (Bytes n) now timeout) /\
     (w_out (deliver gz_decode w k) = w_out w \/ exists a, w_out (deliver gz_decode w k) = w_out w ++ [a] /\ a <> Error TimedOut)).
  { intros k n. unfold deliver, on_read. destruct (r_msg_size (w_reader w)) as [[size dec]|] eqn:MS.
    - destruct (Nat.eqb _ size) eqn:EQ.
      + destruct (parse _ _ _) as [m|] eqn:PA; cbn [w_failed w_reader w_out r_expires r_msg_size].
        * split; [intros _; split; [reflexivity|apply M_message; reflexivity]|right; eexists; split; [reflexivity|discriminate]].
        * split; [discriminate|right; eexists; split; [reflexivity|discriminate]].
      + cbn [w_failed w_reader w_out]. split; [intros _|left; reflexivity].
        match goal with |- context [prime ?r] => destruct (prime_facts r) as [P1 P2] end. cbn [r_msg_size r_expires] in P1, P2. rewrite P1, P2, ?MS.
        split; [reflexivity|]. rewrite A. cbn [andb negb]. apply M_same; cbn [tm_world tm_deadline w_reader w_out]; auto.
    - destruct (Nat.eqb _ 0).
      + cbn. split; [discriminate|right; eexists; split; [reflexivity|discriminate]].
      + destruct (Nat.eqb _ 4); cbn [w_failed w_reader w_out];
          match goal with |- context [prime ?r] => destruct (prime_facts r) as [P1 P2] end; cbn [r_msg_size r_expires] in P1, P2; rewrite P1, P2.
        * split; [intros _|left; reflexivity]. split; [reflexivity|]. rewrite A. cbn [andb negb]. eapply M_header; cbn [tm_world tm_deadline w_reader w_out]; auto; unfold in_message; cbn; rewrite ?MS, ?P1; reflexivity.
        * split; [intros _|left; reflexivity]. split; [exact A|]. rewrite A. cbn [andb negb]. apply M_same; cbn [tm_world tm_deadline w_reader w_out]; auto; rewrite P1, ?MS; reflexivity. }
  assert (SAME : forall (w' : world) b, r_msg_size (w_reader w') = r_msg_size (w_reader w) -> r_expires (w_reader w') = r_expires (w_reader w) -> w_out w' = w_out w ->
     let t' := {| tm_world := w'; tm_deadline := if r_expires (w_reader w') && negb (r_expires (w_reader w)) then (now + timeout)%N else d |} in
     (w_failed w' = false -> (r_expires (w_reader w') = match r_msg_size (w_reader w') with Some _ => true | None => false end) /\
       moved {| tm_world := w; tm_deadline := d |} t' b now timeout) /\
     (w_out w' = w_out w \/ exists a, w_out w' = w_out w ++ [a] /\ (a = Error TimedOut -> b = Expire /\ in_message {| tm_world := w; tm_deadline := d |} = true /\ (d <= now)%N))).
  { intros w' b H1 H2 H3 t'. split; [|left; exact H3]. intros _. rewrite H1, H2. split; [exact A|]. apply M_same; cbn [t' tm_world tm_deadline]; auto.
    rewrite H2. now destruct (r_expires (w_reader w)). }
  destruct e as [| |n| |]; cbn [WireTimeModel.tstep]; unfold tgo; cbn [tm_world tm_deadline]; unfold wstep; rewrite W.
  - destruct (w_calling w); [apply (SAME w); reflexivity|].
    apply (SAME {| w_stream := w_stream w; w_reader := prime (w_reader w); w_calling := true; w_failed := false; w_out := w_out w |} Call); cbn [w_reader w_out]; auto; destruct (prime_facts (w_reader w)) as [P1 P2]; auto. rewrite P2, A. now destruct (r_msg_size _).
  - destruct (w_calling w); [apply (SAME {| w_stream := w_stream w; w_reader := w_reader w; w_calling := false; w_failed := false; w_out := w_out w |} Cancel)|apply (SAME w)]; reflexivity.
  - destruct (w_calling w); [|apply (SAME w); reflexivity].
    assert (D : forall k, _) by (intros k; exact (DEL k n)).
    assert (F : forall k, let t' := {| tm_world := deliver gz_decode w k;
        tm_deadline := if r_expires (w_reader (deliver gz_decode w k)) && negb (r_expires (w_reader w)) then (now + timeout)%N else d |} in
     (w_failed (tm_world t') = false -> (r_expires (w_reader (tm_world t')) = match r_msg_size (w_reader (tm_world t')) with Some _ => true | None => false end) /\
       moved {| tm_world := w; tm_deadline := d |} t' (Bytes n) now timeout) /\
     (w_out (tm_world t') = w_out w \/ exists a, w_out (tm_world t') = w_out w ++ [a] /\
       (a = Error TimedOut -> Bytes n = Expire /\ in_message {| tm_world := w; tm_deadline := d |} = true /\ (d <= now)%N))).
    { intros k. destruct (D k) as [D1 [D2|(a & D2 & D3)]]; split; auto. right. exists a. split; auto. intros X. now contradiction D3. }
    destruct (Nat.eqb _ 0); [apply F|]. destruct (w_stream w); [destruct closed; [apply F|apply (SAME w); reflexivity]|apply F].
  - destruct (r_expires (w_reader w) && (d <=? now)%N) eqn:EX; [|cbn [tm_world]; split; [intros _; split; [exact A|apply M_same; reflexivity]|left; reflexivity]].
    apply andb_true_iff in EX as [EX1 EX2]. apply N.leb_le in EX2. cbn [tm_world tm_deadline].
    destruct (w_calling w); [|apply (SAME w); reflexivity].
    destruct (r_msg_size (w_reader w)) as [[size dec]|] eqn:MS; [|apply (SAME w); rewrite ?MS; reflexivity].
    cbn [fail w_failed w_out]. split; [discriminate|]. right. eexists. split; [reflexivity|]. intros _. split; auto. split; auto.
    unfold in_message. cbn. now rewrite MS.
  - destruct (w_calling w); [|apply (SAME w); reflexivity].
    cbn [fail w_failed w_out tm_world]. split; [discriminate|]. right. eexists. split; [reflexivity|]. discriminate.
Qed.

Lemma failed_stays closed timeout t ev : w_failed (tm_world t) = true -> tm_world (tstep closed timeout t ev) = tm_world t.
Proof.
  intros F. destruct ev as [e now]. cbn. assert (G : wstep gz_decode closed (tm_world t) e = tm_world t) by (unfold wstep; now rewrite F).
  destruct e; cbn; try exact G. destruct (_ && _); [exact G|reflexivity].
Qed.

Section Histories.
Context (closed : bool) (timeout : N) (stream : bytes).
Notation after h := (run (tstep closed timeout) (tconnect stream) h).
Notation since_when := (reading_since closed timeout (tconnect stream)).

Lemma after_snoc h ev : after (h ++ [ev]) = tstep closed timeout (after h) ev.
Proof. rewrite run_app. reflexivity. Qed.

Lemma since_more h e now since : since_when h since -> in_message (after (h ++ [(e, now)])) = true ->
  w_out (tm_world (after (h ++ [(e, now)]))) = w_out (tm_world (after h)) -> since_when (h ++ [(e, now)]) since.
Proof.
  intros (h1 & n & h2 & -> & B & A) M O. exists h1, n, (h2 ++ [(e, now)]). split; [now rewrite <- app_assoc|]. split; auto.
  intros h3 h4 E.
  destruct h4 as [|z h4] using rev_ind.
  - rewrite app_nil_r in E. subst h3. cbv zeta. rewrite <- app_assoc in M, O. cbn [app] in M, O. split; auto. rewrite O.
    exact (proj2 (A h2 [] (eq_sym (app_nil_r h2)))).
  - rewrite app_assoc in E. apply app_inj_tail in E as [E _]. exact (A h3 h4 E).
Qed.

Lemma since_fun h s1 s2 : since_when h s1 -> since_when h s2 -> s1 = s2.
Proof.
  intros (h1 & n & h2 & E1 & B1 & A1) (k1 & m & k2 & E2 & B2 & A2). rewrite E1 in E2. apply app_eq_app in E2 as (x & [[X Y]|[X Y]]).
  - destruct x as [|y x]; [cbn in Y; congruence|]. exfalso. cbn in Y. injection Y as <- Y. 
    destruct (A2 x ((Bytes n, s1) :: h2) Y) as [Q _]. rewrite <- X in Q. congruence.
  - destruct x as [|y x]; [cbn in Y; congruence|]. exfalso. cbn in Y. injection Y as <- Y.
    destruct (A1 x ((Bytes m, s2) :: k2) Y) as [Q _]. rewrite <- X in Q. congruence.
Qed.

Lemma since_runs h : waits (after h) -> agree (w_reader (tm_world (after h))) /\
  (in_message (after h) = true -> exists since, since_when h since /\ tm_deadline (after h) = (since + timeout)%N).
Proof.
  induction h as [|[e now] h IH] using rev_ind.
  - intros _. split; [reflexivity|discriminate].
  - rewrite after_snoc. intros W. assert (W0 : waits (after h)).
    { unfold waits in *. destruct (w_failed (tm_world (after h))) eqn:F; auto. rewrite failed_stays in W by auto. congruence. }
    destruct (IH W0) as [A S]. destruct (agree_step closed timeout (after h) e now A W0) as [K _]. destruct (K W) as [A' MV]. split; auto. clear K.
    intros IM. destruct MV as [MS O D|n -> NI I O D|NI]; [|exists now|congruence].
    + assert (I : in_message (after h) = true) by (unfold in_message in *; now rewrite MS in IM). destruct (S I) as (since & S1 & S2). exists since. split; [|congruence].
      apply since_more; auto; rewrite after_snoc; auto.
    + split; [|exact D]. exists h, n, []. split; [reflexivity|]. split; auto. intros h3 h4 E. symmetry in E. apply app_eq_nil in E as [-> ->].
      cbv zeta. rewrite after_snoc. auto.
Qed.

(* A call gives up for lack of time only if the size of the message that it is reading was complete, and the message itself was not,
   for the whole of the timeout: never while it waits for a message to begin, and never because of an earlier message. *)
Theorem C28_timeout_is_of_this_message h e now :
  w_out (tm_world (after (h ++ [(e, now)]))) = w_out (tm_world (after h)) ++ [Error TimedOut] ->
  exists since, since_when h since /\ (since + timeout <= now)%N.
Proof.
  rewrite after_snoc. intros O. destruct (w_failed (tm_world (after h))) eqn:F.
  - exfalso. rewrite failed_stays in O by auto. rewrite <- (app_nil_r (w_out _)) in O at 1. apply app_inv_head in O. discriminate.
  - destruct (since_runs h F) as [A S]. destruct (agree_step closed timeout (after h) e now A F) as [_ [Q|(a & Q & K)]]; rewrite Q in O.
    + exfalso. rewrite <- (app_nil_r (w_out _)) in O at 1. apply app_inv_head in O. discriminate.
    + apply app_inv_head in O. injection O as ->. destruct (K eq_refl) as (-> & IM & D). destruct (S IM) as (since & S1 & S2). exists since. split; auto. now rewrite S2 in D.
Qed.

Lemma calling_waits h : w_calling (tm_world (after h)) = true -> waits (after h).
Proof.
  assert (P : forall w e, w_failed (wstep gz_decode closed w e) = true -> w_failed w = true \/ w_calling (wstep gz_decode closed w e) = false).
  { intros w e. unfold wstep. destruct (w_failed w) eqn:F; auto. destruct e as [| |n| |]; [destruct (w_calling w); cbn; auto; congruence|destruct (w_calling w); cbn; auto; congruence| | |].
    - destruct (w_calling w) eqn:C; [|congruence].
      assert (D : forall k, w_failed (deliver gz_decode w k) = true -> false = true \/ w_calling (deliver gz_decode w k) = false).
      { intros k. unfold deliver. destruct (on_read _ _ _) as [r [[m s|er]|]]; cbn; auto. }
      destruct (Nat.eqb (room (w_reader w)) 0); [apply D|]. destruct (w_stream w); [destruct closed; [apply D|congruence]|apply D].
    - destruct (w_calling w); [destruct (r_msg_size _)|]; cbn; auto; congruence.
    - destruct (w_calling w); cbn; auto; congruence. }
  unfold waits. cut (w_failed (tm_world (after h)) = true -> w_calling (tm_world (after h)) = false).
  { intros K C. destruct (w_failed _); auto. rewrite K in C; auto. }
  induction h as [|ev h IH] using rev_ind; [discriminate|]. rewrite after_snoc. destruct (w_failed (tm_world (after h))) eqn:F.
  - intros _. rewrite failed_stays by auto. auto.
  - destruct ev as [e now]. destruct e; cbn; try (intros X; apply P in X as [X|X]; [congruence|exact X]).
    destruct (_ && _); [cbn; intros X; apply P in X as [X|X]; [congruence|exact X]|congruence].
Qed.

(* And it does give up then, if it is polled and what it waits for is not there. *)
Theorem C28_stalled_message_is_given_up h since now :
  since_when h since -> w_calling (tm_world (after h)) = true -> (since + timeout <= now)%N ->
  w_out (tm_world (after (h ++ [(Expire, now)]))) = w_out (tm_world (after h)) ++ [Error TimedOut].
Proof.
  intros S C D. rewrite after_snoc. pose proof (calling_waits h C) as W. destruct (since_runs h W) as [A K].
  assert (IM : in_message (after h) = true).
  { destruct S as (h1 & n & h2 & -> & _ & X). exact (proj1 (X h2 [] (eq_sym (app_nil_r h2)))). }
  destruct (K IM) as (s' & S' & DL). rewrite (since_fun _ _ _ S' S) in DL. cbn [WireTimeModel.tstep]. unfold agree in A. unfold in_message in IM.
  rewrite A. destruct (r_msg_size (w_reader (tm_world (after h)))) as [sz|] eqn:MS; [|discriminate].
  replace (tm_deadline (after h) <=? now)%N with true by (symmetry; apply N.leb_le; rewrite DL; exact D). cbn [andb]. unfold tgo. cbn [tm_world]. unfold wstep.
  unfold waits in W. rewrite W, C, MS. reflexivity.
Qed.

(* With its clock the reader does nothing that it does not do without one: all that is said of WireModel's holds of it. *)
Theorem C28_clock_adds_nothing h : exists es, (forall e, In e es -> In e (map fst h)) /\
  tm_world (after h) = run (wstep gz_decode closed) (connect stream) es.
Proof.
  induction h as [|[e now] h (es & I & E)] using rev_ind; [exists []; split; [intros ? []|reflexivity]|]. rewrite after_snoc.
  assert (G : tm_world (tgo gz_decode closed timeout (after h) e now) = run (wstep gz_decode closed) (connect stream) (es ++ [e])).
  { rewrite run_app. cbn. now rewrite E. }
  assert (J : forall x, In x (es ++ [e]) -> In x (map fst (h ++ [(e, now)]))).
  { intros x X. rewrite map_app. apply in_app_iff in X as [X|[<-|[]]]; apply in_app_iff; [left; auto|right; left; reflexivity]. }
  destruct e as [| |n| |]; [exists (es ++ [Call])|exists (es ++ [Cancel])|exists (es ++ [Bytes n])| |exists (es ++ [Break])]; try (split; [exact J|exact G]).
  cbn [WireTimeModel.tstep]. destruct (_ && _); [exists (es ++ [Expire]); split; [exact J|exact G]|].
  exists es. split; [|exact E]. intros x X. rewrite map_app. apply in_app_iff. left. auto.
Qed.
End Histories.
End Props.

(* Two messages "1" with a pause between them that is longer than the timeout: the second one, whose size is complete at 100, is not late at 105,
   but is at 110; nothing is late in the pause. *)
Section Examples.
Let frame1 : bytes := [0; 0; 0; 1; 49].
Let gz (b : bytes) : option bytes := None.
Let h : list (event * N) := [(Call, 0%N); (Bytes 4, 0%N); (Bytes 1, 1%N); (Call, 2%N); (Expire, 50%N); (Bytes 4, 100%N); (Expire, 105%N)].
Example C28_time_example :
  w_out (tm_world (run (tstep gz false 10) (tconnect (frame1 ++ frame1)) h)) = [Message (JNum [49]) 1] /\
  w_out (tm_world (run (tstep gz false 10) (tconnect (frame1 ++ frame1)) (h ++ [(Expire, 110%N)]))) = [Message (JNum [49]) 1; Error TimedOut] /\
  reading_since gz false 10 (tconnect (frame1 ++ frame1)) h 100.
Proof.
  split; [reflexivity|]. split; [reflexivity|]. exists (firstn 5 h), 4, [(Expire, 105%N)]. split; [reflexivity|]. split; [reflexivity|].
  intros h3 h4 E. destruct h3 as [|a [|b h3]]; [split; reflexivity| |discriminate]. cbn in E. injection E as <- <-. split; reflexivity.
Qed.
End Examples.

Print Assumptions C28_timeout_is_of_this_message.
Print Assumptions C28_stalled_message_is_given_up.
Print Assumptions C28_clock_adds_nothing.
