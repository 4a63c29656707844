(* A runner that gets a retry manifest and then the tests of the queue does what a runner
   does that gets both from one source. *)
From Verif Require Import Base JobQueueModel.
From Verif Require Import StatusModel FetchModel FetchSpec FetchProofs RunnerModel RunnerSpec RunnerProofs SystemModel RunnerFeed RetriedModel.

Definition flats (ss : list (list reply)) : list (list reply) :=
  match ss with
  | [[]; []] => [[]]
  | [[Bundle b]; []] => if is_nil (b_work b) then [[]] else [[Bundle {| b_work := b_work b; b_eow := false |}]]
  | _ => ss
  end.
Definition flatf (f : fetcher) : fetcher := {| f_sources := flats (f_sources f); f_retry := f_retry f |}.
Definition flatr (s : runner) : runner :=
  set_prod s (with_fetcher (r_world s) (flatf (w_fetcher (r_world s)))) (r_prod s) (r_chan s) (r_refills s).

Definition rshape (ss : list (list reply)) : Prop :=
  ss = [[]; []] \/ (exists b, ss = [[Bundle b]; []] /\ b_eow b = true) \/ length ss <= 1.

Lemma flats_short ss : length ss <= 1 -> flats ss = ss.
Proof. destruct ss as [|x [|y ss]]; cbn [length]; intros; [reflexivity|destruct x; [reflexivity|destruct r; [destruct x|]; reflexivity]|lia]. Qed.

Lemma flatf_short f : length (f_sources f) <= 1 -> flatf f = f.
Proof. intros L. unfold flatf. rewrite flats_short; auto. now destruct f. Qed.

Lemma retries_srcs f : f_sources (fst (fetch_retries f)) = f_sources f.
Proof. unfold fetch_retries. destruct (try_assemble _) as [t [b|]]; reflexivity. Qed.

Lemma fetch_loop_short fuel : forall f, length (f_sources f) <= 1 -> length (f_sources (fst (fetch_loop fuel f))) <= 1.
Proof.
  induction fuel as [|n IH]; intros f L; [exact L|]. cbn [fetch_loop]. destruct (f_sources f) as [|[|[b|] x] rest] eqn:E.
  - rewrite retries_srcs, E. auto.
  - cbn [fst]. now rewrite E.
  - assert (L' : length (if b_eow b then rest else x :: rest) <= 1) by (cbn [length] in L; destruct (b_eow b); cbn [length]; lia).
    cbv zeta. destruct (is_nil (b_work b) && _); [apply IH; exact L'|]. destruct (hydrate_slice _ _ _) as [[t h]|]; [|exact L'].
    destruct h; try exact L'. destruct (is_nil _); [apply IH; exact L'|exact L'].
  - cbn [fst f_sources]. exact L.
Qed.

Lemma fetch_flat f : rshape (f_sources f) ->
  rshape (f_sources (fst (fetch_next_tests f))) /\
  fetch_next_tests (flatf f) = (flatf (fst (fetch_next_tests f)), snd (fetch_next_tests f)).
Proof.
  intros [E|[(b & E & BE)|L]].
  - unfold fetch_next_tests, flatf. cbn [f_sources f_retry]. rewrite E. cbn [flats concat app length fetch_loop f_sources]. rewrite E. cbn [fst snd]. rewrite E. split; [now left|reflexivity].
  - unfold fetch_next_tests, flatf. cbn [f_sources f_retry]. rewrite E. cbn [flats concat app length fetch_loop f_sources]. rewrite E. rewrite BE. cbn [is_nil negb].
    destruct (b_work b) as [|w ws] eqn:BW.
    + cbn [is_nil andb]. cbn [flats concat app length fetch_loop f_sources fst snd f_retry]. split; [right; right; cbn; lia|reflexivity].
    + cbn [is_nil andb]. cbn [concat app length fetch_loop f_sources f_retry b_eow b_work is_nil andb negb]. cbv zeta.
      unfold hydrate_slice. destruct (hydrate_items (f_retry f) (w :: ws)) as [t|]; cbn [fst snd f_sources f_retry flats]; (split; [right; right; cbn; lia|reflexivity]).
  - rewrite (flatf_short f L). pose proof (fetch_loop_short (S (S (length (concat (f_sources f))))) f L) as L'. fold (fetch_next_tests f) in L'.
    rewrite (flatf_short _ L'). split; [right; right; exact L'|]. now destruct (fetch_next_tests f).
Qed.

Lemma fstep_flat w : rshape (srcs w) -> let w' := fstep w Fetch in
  rshape (srcs w') /\ fstep (with_fetcher w (flatf (w_fetcher w))) Fetch = with_fetcher w' (flatf (w_fetcher w')).
Proof.
  intros SH. unfold fstep. cbn [with_fetcher w_panicked w_ended w_fetcher w_answers w_results]. destruct (w_panicked w) eqn:P; [split; auto|].
  destruct (w_ended w) eqn:E; [split; auto|]. destruct (fetch_flat (w_fetcher w) SH) as [SH' F]. rewrite F.
  destruct (fetch_next_tests (w_fetcher w)) as [f' r]. cbn [fst snd] in *. cbv zeta. destruct r; (split; [exact SH'|reflexivity]).
Qed.

Lemma account_flat w rs : let w' := fstep w (Account rs) in
  srcs w' = srcs w /\ fstep (with_fetcher w (flatf (w_fetcher w))) (Account rs) = with_fetcher w' (flatf (w_fetcher w')).
Proof.
  unfold fstep. cbn [with_fetcher w_panicked w_ended w_fetcher w_answers w_results flatf f_retry]. destruct (w_panicked w) eqn:P; [split; auto|].
  destruct (account_results _ _); split; reflexivity.
Qed.

Lemma rstep_flat batch s e : rshape (srcs (r_world s)) ->
  rshape (srcs (r_world (rstep batch s e))) /\ rstep batch (flatr s) e = flatr (rstep batch s e).
Proof.
  intros SH. destruct e as [|o|]; cbn [rstep].
  - unfold step_producer, flatr. cbn [set_prod r_prod r_world r_chan r_refills r_refill_open with_fetcher w_ended w_answers].
    change (rx_open (set_prod s (with_fetcher (r_world s) (flatf (w_fetcher (r_world s)))) (r_prod s) (r_chan s) (r_refills s))) with (rx_open s).
    destruct (r_prod s) as [|[|m ms] c0| |] eqn:PR.
    + destruct (w_ended (r_world s)) eqn:E; [split; auto; destruct s; cbn in *; now subst|]. destruct (fstep_flat (r_world s) SH) as (SH' & B).
      cbv zeta in *. fold (with_fetcher (r_world s) (flatf (w_fetcher (r_world s)))). rewrite B.
      cbn [with_fetcher w_answers w_ended]. destruct (skipn _ _) as [|b l]; (split; [exact SH'|]); destruct s; cbn in *; now subst.
    + split; auto; destruct s; cbn in *; now subst.
    + destruct (negb (rx_open s)); [split; auto; destruct s; cbn in *; now subst|].
      destruct (Nat.ltb _ _); split; auto; destruct s; cbn in *; now subst.
    + destruct (r_refills s) eqn:RF; [destruct (r_refill_open s) eqn:RO|]; split; auto; destruct s; cbn in *; now subst.
    + split; auto; destruct s; cbn in *; now subst.
  - assert (FR : forall s o, r_world (step_task batch s o) = r_world s).
    { clear. intros s o. unfold step_task. destruct (r_task s) as [| |t|t|m|t rem|[|r rs]|c|]; auto.
      - destruct (r_chan s) as [|[n|t|] ch]; auto. destruct (is_exited _); auto.
      - destruct (r_chan s) as [|[n|t|] ch]; auto. destruct (is_exited _); auto.
      - destruct (is_exited _); auto. destruct (Nat.ltb _ _); auto.
      - destruct o; auto.
      - destruct (Nat.ltb _ _); auto.
      - destruct (r_chan s) as [|[n|u|] ch]; auto. destruct (is_exited _); auto.
      - destruct (Nat.ltb _ _); auto. }
    rewrite FR. split; auto. unfold flatr at 2. rewrite FR. destruct s as [w p ch rf ro el sz pr t rs bf se sd]. unfold flatr. cbn [set_prod r_world r_prod r_chan r_refills r_refill_open r_eligible r_size r_processed r_task r_results r_buffer r_sent r_sender_done].
    unfold step_task. cbn [r_world r_prod r_chan r_refills r_refill_open r_eligible r_size r_processed r_task r_results r_buffer r_sent r_sender_done].
    destruct t as [| |t|t|m|t rem|[|r rs']|c|]; try reflexivity; try (destruct ch as [|[n|u|] ch]); try (destruct o); cbn -[Nat.ltb Nat.leb Nat.mul Nat.div];
    repeat match goal with |- context[if ?b then _ else _] => destruct b end; reflexivity.
  - assert (SB : forall rs buf fin, srcs (r_world (send_buffer s rs buf fin)) = srcs (r_world s) /\
                   send_buffer (flatr s) rs buf fin = flatr (send_buffer s rs buf fin)).
    { intros rs buf fin. destruct (account_flat (r_world s) buf) as [A B]. split; [exact A|]. unfold send_buffer, flatr.
      cbn [set_sender set_prod r_world r_prod r_chan r_refills r_refill_open r_eligible r_size r_processed r_task r_results r_buffer r_sent r_sender_done]. rewrite B. reflexivity. }
    unfold step_sender. change (r_sender_done (flatr s)) with (r_sender_done s). change (r_results (flatr s)) with (r_results s).
    change (r_buffer (flatr s)) with (r_buffer s). change (r_task (flatr s)) with (r_task s). change (r_sent (flatr s)) with (r_sent s).
    destruct (r_sender_done s); [split; auto|]. destruct (r_results s) as [|[r|] rs]; cbv zeta.
    + destruct (r_task s); auto. destruct (r_buffer s); [split; auto|]. destruct (SB [] (a :: l) true) as [A B]. rewrite A. auto.
    + destruct (Nat.leb _ _); [|split; auto]. destruct (SB rs (r_buffer s ++ [r]) false) as [A B]. rewrite A. auto.
    + destruct (r_buffer s); [split; auto|]. destruct (SB rs (a :: l) false) as [A B]. rewrite A. auto.
Qed.

(* Where the raw sources go: a retry manifest that has not come, or has come and is not yet
   fetched, stays until the producer fetches it. *)
Definition waits_retry (s : runner) : Prop := srcs (r_world s) = [[]; []] /\ r_prod s = PFetch /\ w_ended (r_world s) = false.

Lemma flatr_same s : length (srcs (r_world s)) <= 1 -> flatr s = s.
Proof. intros L. unfold flatr. rewrite (flatf_short _ L). destruct s as [[]]; reflexivity. Qed.

Lemma flat_srcs s : srcs (r_world (flatr s)) = flats (srcs (r_world s)).
Proof. reflexivity. Qed.
