(* A runner whose source is given its replies one by one does what a runner does whose
   source has all of them from the start. *)
From Verif Require Import Base JobQueueModel.
From Verif Require Import StatusModel FetchModel FetchSpec FetchProofs RunnerModel RunnerSpec RunnerProofs SystemModel.

Definition growf (d : list reply) (f : fetcher) : fetcher :=
  {| f_sources := match f_sources f with [x] => [x ++ d] | ss => ss end; f_retry := f_retry f |}.
Definition growr (d : list reply) (s : runner) : runner :=
  set_prod s (with_fetcher (r_world s) (growf d (w_fetcher (r_world s)))) (r_prod s) (r_chan s) (r_refills s).

Lemma feed_grow b s : feed b s = growr [Bundle b] s.
Proof. reflexivity. Qed.

(* each reply has tests or is the end of work *)
Definition ok_reply (r : reply) : Prop := match r with Bundle b => b_work b <> [] \/ b_eow b = true | SourceError => False end.
Definition shape (ss : list (list reply)) : Prop := ss = [] \/ exists x, ss = [x] /\ Forall ok_reply x.

Lemma fetch_shape f : shape (f_sources f) ->
  (f_sources f = [[]] /\ fetch_next_tests f = (f, StillWaiting)) \/
  (f_sources f = [] /\ fetch_next_tests f = fetch_retries f) \/
  exists b x, f_sources f = [Bundle b :: x] /\
    forall d, fetch_next_tests (growf d f) =
      let sources := if b_eow b then [] else [x ++ d] in
      match hydrate_slice (f_retry f) (b_work b) (b_eow b) with
      | None => ({| f_sources := sources; f_retry := f_retry f |}, Panic)
      | Some (t, h) =>
          let f' := {| f_sources := sources; f_retry := t |} in
          match h with
          | EndOfManifest => if is_nil (b_work b) then (if b_eow b then fetch_retries f' else (f', StillWaiting)) else (f', Tests {| b_work := b_work b; b_eow := false |})
          | _ => (f', Tests {| b_work := b_work b; b_eow := b_eow b |})
          end
      end.
Proof.
  intros [E|([|r x] & E & F)].
  - right; left. split; auto. unfold fetch_next_tests. rewrite E. cbn [concat length fetch_loop]. rewrite E. reflexivity.
  - left. split; auto. unfold fetch_next_tests. rewrite E. cbn [concat length fetch_loop]. rewrite E. reflexivity.
  - right; right. inversion F as [|? ? OK _]; subst. destruct r as [b|]; [|destruct OK]. exists b, x. split; auto. intros d.
    unfold fetch_next_tests, growf. cbn [f_sources f_retry]. rewrite E. cbn [app concat length fetch_loop f_sources f_retry].
    destruct OK as [NE|EW].
    + destruct (b_work b) as [|w ws] eqn:BW; [congruence|]. cbn [is_nil andb]. 
      destruct (b_eow b) eqn:BE; cbn [is_nil andb]; destruct (hydrate_slice _ _ _) as [[t h]|]; auto; destruct h; auto.
    + rewrite EW. cbn [is_nil negb andb]. rewrite andb_false_r. destruct (hydrate_slice _ _ _) as [[t h]|]; auto.
Qed.

Lemma retries_grow d f : f_sources f = [] -> growf d f = f /\ growf d (fst (fetch_retries f)) = fst (fetch_retries f) /\ f_sources (fst (fetch_retries f)) = [].
Proof.
  intros E. unfold growf. destruct f as [ss t]. cbn [f_sources f_retry] in *. subst ss. split; auto.
  unfold fetch_retries. cbn [f_retry f_sources]. destruct (try_assemble t) as [t' [b|]]; auto.
Qed.

Lemma growf_nil f : growf [] f = f.
Proof. destruct f as [ss t]. unfold growf. cbn [f_sources f_retry]. destruct ss as [|x [|y ss]]; auto. now rewrite app_nil_r. Qed.

Lemma hydrate_end t ws h t' e : hydrate_slice t ws e = Some (t', h) -> h = EndOfManifest -> e = true.
Proof.
  unfold hydrate_slice. destruct (hydrate_items t ws); [|discriminate]. destruct e; auto. intros [= _ <-]. discriminate.
Qed.

Lemma fetch_grow d f f' r : shape (f_sources f) -> fetch_next_tests f = (f', r) ->
  shape (f_sources f') /\ ((f_sources f = [[]] /\ f' = f /\ r = StillWaiting) \/ fetch_next_tests (growf d f) = (growf d f', r)).
Proof.
  intros SH E. destruct (fetch_shape f SH) as [(A & B)|[(A & B)|(b & x & A & B)]].
  - rewrite B in E. injection E as <- <-. auto.
  - destruct (retries_grow d f A) as (G1 & G2 & G3). rewrite E in B. rewrite <- B in G2, G3. cbn [fst] in G2, G3. split; [left; exact G3|].
    right. now rewrite G1, E, G2.
  - pose proof (B []) as B0. rewrite growf_nil, E, app_nil_r in B0. specialize (B d). cbv zeta in B, B0.
    assert (FX : Forall ok_reply x) by (destruct SH as [SH|(y & SH & F)]; rewrite A in SH; [discriminate|]; injection SH as <-; now inversion F).
    assert (SS : shape (if b_eow b then [] else [x])) by (destruct (b_eow b); [left|right]; eauto).
    assert (G : forall t, growf d {| f_sources := if b_eow b then [] else [x]; f_retry := t |} = {| f_sources := if b_eow b then [] else [x ++ d]; f_retry := t |})
      by (intros t; unfold growf; cbn [f_sources f_retry]; destruct (b_eow b); reflexivity).
    rewrite B. destruct (hydrate_slice _ _ _) as [[t h]|] eqn:HS.
    2:{ injection B0 as -> ->. split; auto. right. now rewrite G. }
    destruct h; [injection B0 as -> ->; split; auto; right; now rewrite G|injection B0 as -> ->; split; auto; right; now rewrite G|].
    assert (BE := hydrate_end _ _ _ _ _ HS eq_refl). rewrite BE in *. destruct (is_nil (b_work b)).
    + destruct (retries_grow d {| f_sources := []; f_retry := t |} eq_refl) as (_ & G2 & G3). rewrite <- B0 in G2, G3. cbn [fst] in G2, G3.
      split; [left; exact G3|]. right. now rewrite <- B0, G2.
    + injection B0 as -> ->. split; auto.
Qed.

Lemma fstep_grow d w : shape (srcs w) -> let w' := fstep w Fetch in
  shape (srcs w') /\ ((w' = w /\ w_ended w = false /\ srcs w = [[]]) \/ fstep (with_fetcher w (growf d (w_fetcher w))) Fetch = with_fetcher w' (growf d (w_fetcher w'))).
Proof.
  intros SH. unfold fstep. cbn [with_fetcher w_panicked w_ended w_fetcher w_answers w_results]. destruct (w_panicked w) eqn:P; [split; auto|].
  destruct (w_ended w) eqn:E; [split; auto|]. destruct (fetch_next_tests (w_fetcher w)) as [f' r] eqn:F.
  destruct (fetch_grow d _ _ _ SH F) as (SH' & [(A & -> & ->)|B]).
  - cbv zeta. split; [exact SH'|]. left. split; auto. destruct w as [f a rs en pa]. cbn in *. now subst.
  - rewrite B. destruct r; cbv zeta; (split; [exact SH'|]); right; reflexivity.
Qed.

Lemma account_grow d w rs : let w' := fstep w (Account rs) in
  srcs w' = srcs w /\ fstep (with_fetcher w (growf d (w_fetcher w))) (Account rs) = with_fetcher w' (growf d (w_fetcher w')).
Proof.
  unfold fstep. cbn [with_fetcher w_panicked w_ended w_fetcher w_answers w_results growf f_retry]. destruct (w_panicked w) eqn:P; [split; auto|].
  destruct (account_results _ _); split; reflexivity.
Qed.

Lemma rstep_grow d batch s e : shape (srcs (r_world s)) ->
  shape (srcs (r_world (rstep batch s e))) /\ ((rstep batch s e = s /\ asking s = true) \/ rstep batch (growr d s) e = growr d (rstep batch s e)).
Proof.
  intros SH. destruct e as [|o|]; cbn [rstep].
  - unfold step_producer, growr. cbn [set_prod r_prod r_world r_chan r_refills r_refill_open with_fetcher w_ended w_answers].
    change (rx_open (set_prod s (with_fetcher (r_world s) (growf d (w_fetcher (r_world s)))) (r_prod s) (r_chan s) (r_refills s))) with (rx_open s).
    destruct (r_prod s) as [|[|m ms] c0| |] eqn:PR.
    + destruct (w_ended (r_world s)) eqn:E; [split; auto; right; destruct s; cbn in *; now subst|]. destruct (fstep_grow d (r_world s) SH) as (SH' & [(A & _ & A3)|B]).
      * rewrite A. rewrite skipn_all. rewrite E. cbn [set_prod r_world]. split; auto. left. split; [destruct s; cbn in *; now subst|].
        unfold asking. now rewrite PR, A3.
      * cbv zeta in *. fold (with_fetcher (r_world s) (growf d (w_fetcher (r_world s)))). rewrite B.
        cbn [with_fetcher w_answers w_ended]. destruct (skipn _ _) as [|b l]; (split; [exact SH'|]); right; destruct s; cbn in *; now subst.
    + split; auto; right; destruct s; cbn in *; now subst.
    + destruct (negb (rx_open s)); [split; auto; right; destruct s; cbn in *; now subst|].
      destruct (Nat.ltb _ _); split; auto; right; destruct s; cbn in *; now subst.
    + destruct (r_refills s) eqn:RF; [destruct (r_refill_open s) eqn:RO|]; split; auto; right; destruct s; cbn in *; now subst.
    + split; auto; right; destruct s; cbn in *; now subst.
  - assert (FR : forall s o, r_world (step_task batch s o) = r_world s).
    { clear. intros s o. unfold step_task. destruct (r_task s) as [| |t|t|m|t rem|[|r rs]|c|]; auto.
      - destruct (r_chan s) as [|[n|t|] ch]; auto. destruct (is_exited _); auto.
      - destruct (r_chan s) as [|[n|t|] ch]; auto. destruct (is_exited _); auto.
      - destruct (is_exited _); auto. destruct (Nat.ltb _ _); auto.
      - destruct o; auto.
      - destruct (Nat.ltb _ _); auto.
      - destruct (r_chan s) as [|[n|u|] ch]; auto. destruct (is_exited _); auto.
      - destruct (Nat.ltb _ _); auto. }
    rewrite FR. split; auto. right. unfold growr at 2. rewrite FR. destruct s as [w p ch rf ro el sz pr t rs bf se sd]. unfold growr. cbn [set_prod r_world r_prod r_chan r_refills r_refill_open r_eligible r_size r_processed r_task r_results r_buffer r_sent r_sender_done].
    unfold step_task. cbn [r_world r_prod r_chan r_refills r_refill_open r_eligible r_size r_processed r_task r_results r_buffer r_sent r_sender_done].
    destruct t as [| |t|t|m|t rem|[|r rs']|c|]; try reflexivity; try (destruct ch as [|[n|u|] ch]); try (destruct o); cbn -[Nat.ltb Nat.leb Nat.mul Nat.div];
    repeat match goal with |- context[if ?b then _ else _] => destruct b end; reflexivity.
  - assert (SB : forall rs buf fin, srcs (r_world (send_buffer s rs buf fin)) = srcs (r_world s) /\
                   send_buffer (growr d s) rs buf fin = growr d (send_buffer s rs buf fin)).
    { intros rs buf fin. destruct (account_grow d (r_world s) buf) as [A B]. split; [exact A|]. unfold send_buffer, growr.
      cbn [set_sender set_prod r_world r_prod r_chan r_refills r_refill_open r_eligible r_size r_processed r_task r_results r_buffer r_sent r_sender_done]. rewrite B. reflexivity. }
    unfold step_sender. change (r_sender_done (growr d s)) with (r_sender_done s). change (r_results (growr d s)) with (r_results s).
    change (r_buffer (growr d s)) with (r_buffer s). change (r_task (growr d s)) with (r_task s). change (r_sent (growr d s)) with (r_sent s).
    destruct (r_sender_done s); [split; auto|]. destruct (r_results s) as [|[r|] rs]; cbv zeta.
    + destruct (r_task s); auto. destruct (r_buffer s); [split; auto|]. destruct (SB [] (a :: l) true) as [A B]. rewrite A. auto.
    + destruct (Nat.leb _ _); [|split; auto]. destruct (SB rs (r_buffer s ++ [r]) false) as [A B]. rewrite A. auto.
    + destruct (r_buffer s); [split; auto|]. destruct (SB rs (a :: l) false) as [A B]. rewrite A. auto.
Qed.

Lemma run_grow d batch es : forall s, shape (srcs (r_world s)) ->
  shape (srcs (r_world (run (rstep batch) s es))) /\
  exists es', growr d (run (rstep batch) s es) = run (rstep batch) (growr d s) es' /\ incl es' es.
Proof.
  induction es as [|e es IH]; intros s SH; [split; auto; exists []; split; [reflexivity|intros ? []]|].
  change (run (rstep batch) s (e :: es)) with (run (rstep batch) (rstep batch s e) es).
  destruct (rstep_grow d batch s e SH) as [SH' G]. destruct (IH _ SH') as (A & es' & B & I). split; auto. destruct G as [[G _]|G].
  - rewrite G in B. exists es'. rewrite G. split; auto. intros x X. right. auto.
  - exists (e :: es'). split.
    + change (run (rstep batch) (growr d s) (e :: es')) with (run (rstep batch) (rstep batch (growr d s) e) es'). now rewrite G.
    + intros x [X|X]; [now left|]. right. auto.
Qed.

Lemma grow_rinit d x max : growr d (rinit [x] max) = rinit [x ++ d] max.
Proof. reflexivity. Qed.

(* The runner of a source that was given the replies [x] and gets another one. *)
Lemma feed_run batch max x b es : Forall ok_reply x ->
  exists es', feed b (run (rstep batch) (rinit [x] max) es) = run (rstep batch) (rinit [x ++ [Bundle b]] max) es' /\ incl es' es.
Proof.
  intros F. destruct (run_grow [Bundle b] batch es (rinit [x] max)) as (_ & es' & E & I); [right; exists x; auto|].
  exists es'. now rewrite feed_grow, E, grow_rinit.
Qed.
