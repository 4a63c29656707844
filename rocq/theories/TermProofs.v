From Verif Require Import Base StatusModel TermModel TermSpec.
From Coq Require Import NArith.
Open Scope N_scope.

Lemma text_eqb_spec a b : text_eqb a b = true <-> a = b.
Proof.
  revert b. induction a as [|x a IH]; intros [|y b]; simpl; try (split; congruence).
  rewrite andb_true_iff, N.eqb_eq, IH. split; [intros [-> ->]; auto|intros E; now injection E].
Qed.

Lemma split_eq_plain p : ~ In 61 p -> split_eq p = [p].
Proof.
  induction p as [|c p IH]; intros H; [reflexivity|]. cbn [split_eq]. destruct (N.eqb_spec c c_eq) as [->|N].
  - contradiction H. now left.
  - rewrite IH; [reflexivity|]. intros K. apply H. now right.
Qed.

Lemma split_eq_cut a b : ~ In 61 a -> split_eq (a ++ 61 :: b) = a :: split_eq b.
Proof.
  induction a as [|c a IH]; intros H; cbn [app split_eq]; [reflexivity|].
  destruct (N.eqb_spec c c_eq) as [->|N]; [contradiction H; now left|].
  rewrite IH; [reflexivity|]. intros K. apply H. now right.
Qed.

Lemma split_eq_nonempty s : split_eq s <> [].
Proof. destruct s as [|c s]; cbn [split_eq]; [discriminate|]. destruct (c =? c_eq); [discriminate|]. destruct (split_eq s); discriminate. Qed.

(* the parts never contain '=', and joined by '=' they are the text *)
Lemma split_eq_spec s : forall p ps, split_eq s = p :: ps ->
  ~ In 61 p /\ (ps = [] -> s = p) /\ (ps <> [] -> exists t, s = p ++ 61 :: t /\ split_eq t = ps).
Proof.
  induction s as [|c s IH]; intros p ps; cbn [split_eq].
  - intros E; injection E as <- <-. split; [auto|]. split; [auto|]. now intros X.
  - destruct (N.eqb_spec c c_eq) as [->|N].
    + intros E; injection E as <- <-. split; [auto|]. split; [intros X; now apply split_eq_nonempty in X|].
      intros _. exists s. auto.
    + destruct (split_eq s) as [|q qs] eqn:Q; [now apply split_eq_nonempty in Q|].
      intros E; injection E as <- <-. destruct (IH _ _ eq_refl) as (A & B & C).
      split; [intros [X|X]; [now apply N|auto]|]. split; [intros X; now rewrite (B X)|].
      intros X. destruct (C X) as (t & -> & T). exists t. auto.
Qed.

Lemma blank_false s : blank s = false <-> exists c, In c s /\ white_space c = false.
Proof.
  unfold blank. induction s as [|c s IH]; cbn [forallb].
  - split; [discriminate|]. now intros (c & [] & _).
  - rewrite andb_false_iff, IH. split.
    + intros [H|(d & I & H)]; [exists c; split; [now left|exact H]|exists d; split; [now right|exact H]].
    + intros (d & [<-|I] & H); [now left|right; now exists d].
Qed.

Lemma no_eq l : existsb (N.eqb 61) l = false -> ~ In 61 l.
Proof.
  intros H I. assert (K : existsb (N.eqb 61) l = true) by (apply existsb_exists; exists 61; split; [exact I|reflexivity]). congruence.
Qed.

(* ---- dot ---- *)

Definition is_break (c : chunk) : bool := match c with Break => true | _ => false end.
Definition is_text (c : chunk) : bool := match c with Text _ => true | _ => false end.
Definition no_text (l : list chunk) : list chunk := filter (fun c => negb (is_text c)) l.
Definition no_break (l : list chunk) : list chunk := filter (fun c => negb (is_break c)) l.
Definition line_of (l : list N) : list chunk := map Mark l ++ [Break].

Lemma no_text_app a b : no_text (a ++ b) = no_text a ++ no_text b. Proof. apply filter_app. Qed.
Lemma no_break_app a b : no_break (a ++ b) = no_break a ++ no_break b. Proof. apply filter_app. Qed.

Lemma dot_push_out d r : dr_out (dot_push d r) = dr_out d ++ [Mark (dot_of (tr_status r))] ++
  (if (dr_num_results d + 1) mod 80 =? 0 then [Break] else []) ++
  (match tr_status r with PrivateNativeRunnerError => [Text (match tr_output r with Some o => o | None => no_output end ++ [nl])] | _ => [] end).
Proof.
  unfold dot_push, DOT_REPORTER_LINE_LIMIT. destruct (tr_status r); cbn [dr_out]; rewrite ?app_nil_r, <- ?app_assoc; reflexivity.
Qed.

Lemma dot_push_num d r : dr_num_results (dot_push d r) = dr_num_results d + 1.
Proof. unfold dot_push. now destruct (tr_status r). Qed.

Record dot_inv (rs : list tresult) (d : dot_reporter) (ls : list (list N)) (cur : list N) : Prop := {
  di_marks : concat ls ++ cur = map (fun r => dot_of (tr_status r)) rs;
  di_full : Forall (fun l => length l = 80%nat) ls;
  di_cur : (length cur < 80)%nat;
  di_num : dr_num_results d = 80 * N.of_nat (length ls) + N.of_nat (length cur);
  di_out : no_text (dr_out d) = flat_map line_of ls ++ map Mark cur }.

Lemma dot_inv_holds rs : exists ls cur, dot_inv rs (fold_left dot_push rs dot_new) ls cur.
Proof.
  induction rs as [|r rs IH] using rev_ind.
  - exists [], []. constructor; cbn; auto; lia.
  - destruct IH as (ls & cur & I). rewrite fold_left_app. cbn [fold_left]. set (d := fold_left dot_push rs dot_new) in *.
    destruct I as [I1 I2 I3 I4 I5].
    assert (M : (dr_num_results d + 1) mod 80 = (N.of_nat (length cur) + 1) mod 80).
    { rewrite I4. replace (80 * N.of_nat (length ls) + N.of_nat (length cur) + 1) with (N.of_nat (length cur) + 1 + N.of_nat (length ls) * 80) by lia.
      apply N.mod_add. lia. }
    assert (X : no_text (match tr_status r with PrivateNativeRunnerError => [Text (match tr_output r with Some o => o | None => no_output end ++ [nl])] | _ => [] end) = []) by now destruct (tr_status r).
    destruct (Nat.eq_dec (length cur) 79) as [L|L].
    + exists (ls ++ [cur ++ [dot_of (tr_status r)]]), []. constructor.
      * rewrite concat_app, map_app. cbn [concat map]. rewrite !app_nil_r, app_assoc, I1. reflexivity.
      * apply Forall_app. split; [exact I2|]. constructor; [|constructor]. rewrite app_length. simpl. lia.
      * simpl. lia.
      * rewrite dot_push_num, I4, app_length. cbn [length]. lia.
      * rewrite dot_push_out, !no_text_app, I5, X, M, L. rewrite flat_map_app. cbn [flat_map map]. rewrite !app_nil_r.
        change ((N.of_nat 79 + 1) mod 80 =? 0) with true. rewrite <- app_assoc. f_equal. unfold line_of. rewrite map_app, <- app_assoc. reflexivity.
    + exists ls, (cur ++ [dot_of (tr_status r)]). constructor.
      * rewrite map_app. cbn [map]. rewrite app_assoc, I1. reflexivity.
      * exact I2.
      * rewrite app_length. simpl. lia.
      * rewrite dot_push_num, I4, app_length. cbn [length]. lia.
      * rewrite dot_push_out, !no_text_app, I5, X, M, N.mod_small by lia.
        destruct (N.eqb_spec (N.of_nat (length cur) + 1) 0) as [Z|Z]; [lia|].
        rewrite map_app, <- !app_assoc. reflexivity.
Qed.

Lemma mod_80 (q r : nat) : (r < 80)%nat -> (80 * N.of_nat q + N.of_nat r) mod 80 = N.of_nat r.
Proof.
  intros H. replace (80 * N.of_nat q + N.of_nat r) with (N.of_nat r + N.of_nat q * 80) by lia.
  rewrite N.mod_add by lia. apply N.mod_small. lia.
Qed.

Lemma dot_lines rs : exists ls, laid_out (map (fun r => dot_of (tr_status r)) rs) ls /\ no_text (dot_report rs) = flat_map line_of ls.
Proof.
  unfold dot_report, dot_after_all. destruct (dot_inv_holds rs) as (ls & cur & [I1 I2 I3 I4 I5]).
  set (d := fold_left dot_push rs dot_new) in *.
  rewrite no_text_app, I5, I4. unfold DOT_REPORTER_LINE_LIMIT. rewrite mod_80 by exact I3.
  rewrite Forall_forall in I2. destruct cur as [|c cur].
  - exists ls. rewrite app_nil_r in *. cbn [length map]. change (N.of_nat 0 =? 0) with true. cbn [no_text filter]. rewrite app_nil_r. split; [|reflexivity].
    split; [exact I1|]. intros a l b E. assert (K : length l = 80%nat) by (apply I2; rewrite E; apply in_elt). lia.
  - exists (ls ++ [c :: cur]). split.
    + split; [rewrite concat_app; cbn [concat]; now rewrite app_nil_r|]. intros a l b E.
      destruct b as [|y b] using rev_ind.
      * apply app_inj_tail in E as [_ <-]. split; [simpl in *; lia|now intros X].
      * clear IHb. rewrite app_comm_cons, app_assoc in E. apply app_inj_tail in E as [E _].
        assert (K : length l = 80%nat) by (apply I2; rewrite E; apply in_elt). lia.
    + destruct (N.eqb_spec (N.of_nat (length (c :: cur))) 0) as [Z|Z]; [simpl in Z; lia|].
      rewrite flat_map_app. cbn [flat_map no_text filter negb is_text]. rewrite app_nil_r, <- app_assoc. reflexivity.
Qed.

Lemma dot_no_break rs : no_break (dot_report rs) =
  flat_map (fun r => Mark (dot_of (tr_status r)) ::
     match tr_status r with PrivateNativeRunnerError => [Text (match tr_output r with Some o => o | None => no_output end ++ [nl])] | _ => [] end) rs.
Proof.
  unfold dot_report, dot_after_all. rewrite no_break_app.
  assert (E : no_break (if dr_num_results (fold_left dot_push rs dot_new) mod DOT_REPORTER_LINE_LIMIT =? 0 then [] else [Break]) = []) by now destruct (_ =? 0).
  rewrite E, app_nil_r. clear E. induction rs as [|r rs IH] using rev_ind; [reflexivity|].
  rewrite fold_left_app, flat_map_app. cbn [fold_left flat_map]. rewrite dot_push_out, !no_break_app, IH, app_nil_r. f_equal.
  assert (E : forall b : bool, no_break (if b then [Break] else []) = []) by now intros [|].
  rewrite E. cbn [no_break filter negb is_break app]. f_equal. now destruct (tr_status r).
Qed.

(* ---- progress ---- *)

Definition is_newline (i : item) : bool := match i with INewline => true | _ => false end.
Definition is_bar (i : item) : bool := match i with IBar _ _ _ => true | _ => false end.
Definition written (l : list item) : list item := filter (fun i => negb (is_bar i)) l.
Definition content (l : list item) : list item := filter (fun i => negb (is_newline i)) l.

Lemma results_app a b : results_in (a ++ b) = results_in a ++ results_in b. Proof. apply flat_map_app. Qed.
Lemma failing_app a b : failing_in (a ++ b) = failing_in a ++ failing_in b.
Proof. unfold failing_in. now rewrite results_app, filter_app. Qed.
Lemma ticks_app a b : ticks_in (a ++ b) = (ticks_in a + ticks_in b)%nat.
Proof. unfold ticks_in. now rewrite filter_app, app_length. Qed.

Lemma separated_snoc l x : separated (l ++ [x]) = match l with [] => [x] | _ => separated l ++ [INewline; x] end.
Proof.
  induction l as [|y l IH]; [reflexivity|]. destruct l as [|z l]; [reflexivity|].
  change ((y :: z :: l) ++ [x]) with (y :: (z :: l) ++ [x]).
  change (separated (y :: (z :: l) ++ [x])) with (y :: INewline :: separated ((z :: l) ++ [x])). rewrite IH. reflexivity.
Qed.

Record progress_inv (bar : bool) (cs : list pcall) (p : progress_reporter) : Prop := {
  pi_bar : pr_bar p = bar;
  pi_results : pr_results p = N.of_nat (length (results_in cs));
  pi_failing : pr_failing p = N.of_nat (length (failing_in cs));
  pi_ticks : pr_ticks p = N.of_nat (ticks_in cs);
  pi_under : ~ In IUnderflow (pr_out p);
  pi_shown : flat_map (fun i => match i with IFailing r => [r] | _ => [] end) (pr_out p) = failing_in cs;
  pi_first : pr_wrote_first p = true <-> content (written (pr_out p)) <> [];
  pi_sep : written (pr_out p) = separated (content (written (pr_out p)));
  pi_progress : length (filter (fun i => match i with IProgress _ _ _ => true | _ => false end) (pr_out p)) = if bar then 0%nat else ((ticks_in cs + 9) / 10)%nat;
}.

Lemma failing_le cs : (length (failing_in cs) <= length (results_in cs))%nat.
Proof. unfold failing_in. generalize (results_in cs). induction l as [|x l IH]; cbn [filter length]; [lia|]. destruct (is_fail_like _); cbn [length]; lia. Qed.

Lemma progress_item_ok mk cs : progress_item mk (N.of_nat (length (results_in cs))) (N.of_nat (length (failing_in cs))) =
  mk (N.of_nat (length (results_in cs))) (N.of_nat (length (results_in cs)) - N.of_nat (length (failing_in cs))) (N.of_nat (length (failing_in cs))).
Proof.
  unfold progress_item. destruct (N.ltb_spec (N.of_nat (length (results_in cs))) (N.of_nat (length (failing_in cs)))) as [H|H]; [|reflexivity].
  exfalso. assert (X := failing_le cs). lia.
Qed.

Lemma written_app a b : written (a ++ b) = written a ++ written b. Proof. apply filter_app. Qed.
Lemma content_app a b : content (a ++ b) = content a ++ content b. Proof. apply filter_app. Qed.

(* one more item, after a blank line unless it is the first *)
Lemma sep_step (out : list item) (w : bool) x :
  is_bar x = false -> is_newline x = false ->
  (w = true <-> content (written out) <> []) -> written out = separated (content (written out)) ->
  let out' := out ++ (if w then [INewline] else []) ++ [x] in
  content (written out') = content (written out) ++ [x] /\ written out' = separated (content (written out')).
Proof.
  intros B N W S out'. unfold out'. rewrite !written_app, !content_app.
  assert (X1 : written [x] = [x]) by (cbn; now rewrite B). assert (X2 : content [x] = [x]) by (cbn; now rewrite N).
  rewrite X1, X2. destruct w; cbn [written content filter negb is_bar is_newline app].
  - split; [reflexivity|]. rewrite separated_snoc. destruct (content (written out)) as [|y l] eqn:E; [now destruct (proj1 W eq_refl)|].
    rewrite S at 1. reflexivity.
  - destruct (content (written out)) as [|y l] eqn:E.
    + split; [reflexivity|]. rewrite S. reflexivity.
    + assert (K : false = true) by (apply W; discriminate). discriminate K.
Qed.

Lemma ceil_step n : (((n + 1) + 9) / 10 = (n + 9) / 10 + (if (n mod 10 =? 0)%nat then 1 else 0))%nat.
Proof.
  assert (E := Nat.div_mod n 10 ltac:(lia)). assert (B := Nat.mod_upper_bound n 10 ltac:(lia)).
  set (q := (n / 10)%nat) in *. set (r := (n mod 10)%nat) in *. clearbody q r. rewrite E.
  destruct (Nat.eqb_spec r 0) as [->|H].
  - replace (10 * q + 0 + 1 + 9)%nat with ((q + 1) * 10)%nat by lia. rewrite Nat.div_mul by lia.
    replace (10 * q + 0 + 9)%nat with (9 + q * 10)%nat by lia. rewrite Nat.div_add by lia. change (9 / 10)%nat with 0%nat. lia.
  - replace (10 * q + r + 1 + 9)%nat with (r + (q + 1) * 10)%nat by lia. rewrite Nat.div_add by lia. rewrite (Nat.div_small r) by lia.
    replace (10 * q + r + 9)%nat with ((r - 1) + (q + 1) * 10)%nat by lia. rewrite Nat.div_add by lia. rewrite (Nat.div_small (r - 1)) by lia. lia.
Qed.

Lemma N_mod_nat a : N.of_nat a mod 10 =? 0 = (a mod 10 =? 0)%nat.
Proof.
  assert (E : (N.of_nat (a mod 10) = N.of_nat a mod 10)) by apply (Nat2N.inj_mod a 10). rewrite <- E.
  destruct (Nat.eqb_spec (a mod 10) 0) as [->|X]; [reflexivity|]. apply N.eqb_neq. lia.
Qed.

Lemma progress_inv_holds bar cs : progress_inv bar cs (fold_left progress_step cs (progress_new bar)).
Proof.
  induction cs as [|c cs IH] using rev_ind.
  - constructor; cbn; auto.
    + split; [discriminate|now intros X].
    + now destruct bar.
  - rewrite fold_left_app. cbn [fold_left]. set (p := fold_left progress_step cs (progress_new bar)) in *. clearbody p.
    destruct IH as [I1 I2 I3 I4 I5 I6 I7 I8 I9]. destruct c as [r|]; cbn [progress_step].
    + (* a result *)
      unfold progress_push. set (f := is_fail_like (tr_status r)).
      set (p1 := {| pr_out := pr_out p ++ (if f then (if pr_wrote_first p then [INewline] else []) ++ [IFailing r] else []);
       pr_bar := pr_bar p; pr_ticks := pr_ticks p; pr_results := pr_results p + 1;
       pr_failing := pr_failing p + (if f then 1 else 0); pr_wrote_first := pr_wrote_first p || f |}).
      assert (Hr : pr_results p1 = N.of_nat (length (results_in (cs ++ [PResult r])))).
      { cbn [p1 pr_results]. rewrite results_app, app_length, I2. cbn [results_in flat_map app length]. lia. }
      assert (Hfl : failing_in [PResult r] = if f then [r] else []) by reflexivity.
      assert (Hf : pr_failing p1 = N.of_nat (length (failing_in (cs ++ [PResult r])))).
      { cbn [p1 pr_failing]. rewrite failing_app, app_length, I3, Hfl. destruct f; cbn [length]; lia. }
      assert (Ht : ticks_in (cs ++ [PResult r]) = ticks_in cs) by (rewrite ticks_app; cbn; lia).
      assert (P1 : progress_inv bar (cs ++ [PResult r]) p1).
      { constructor; cbn [p1 pr_bar pr_results pr_failing pr_ticks pr_out pr_wrote_first].
        - exact I1.
        - exact Hr.
        - exact Hf.
        - now rewrite I4, Ht.
        - intros X. apply in_app_iff in X as [X|X]; [auto|]. destruct f; [|destruct X]. apply in_app_iff in X as [X|X].
          + destruct (pr_wrote_first p); [destruct X as [X|[]]; discriminate X|destruct X].
          + destruct X as [X|[]]; discriminate X.
        - rewrite flat_map_app, I6, failing_app, Hfl. f_equal. destruct f; [|reflexivity]. now destruct (pr_wrote_first p).
        - destruct f.
          + destruct (sep_step (pr_out p) (pr_wrote_first p) (IFailing r) eq_refl eq_refl I7 I8) as [-> _].
            rewrite orb_true_r. split; [intros _ X; now apply app_eq_nil in X as [_ X]|auto].
          + rewrite orb_false_r, app_nil_r. exact I7.
        - destruct f; [|rewrite app_nil_r; exact I8].
          now destruct (sep_step (pr_out p) (pr_wrote_first p) (IFailing r) eq_refl eq_refl I7 I8) as [_ S].
        - rewrite filter_app, app_length, I9, Ht. destruct f; [|simpl; lia]. destruct (pr_wrote_first p); simpl; lia. }
      clearbody p1. clear - P1. destruct P1 as [J1 J2 J3 J4 J5 J6 J7 J8 J9]. set (cs' := cs ++ [PResult r]) in *. clearbody cs'.
      unfold tick_progress. rewrite J1. cbn [andb]. destruct bar.
      * rewrite J2, J3, progress_item_ok. constructor; cbn [pr_bar pr_results pr_failing pr_ticks pr_out pr_wrote_first]; auto.
        -- rewrite J4. lia.
        -- intros X. apply in_app_iff in X as [X|[X|[]]]; [auto|discriminate X].
        -- rewrite flat_map_app, J6. cbn. now rewrite app_nil_r.
        -- rewrite written_app. cbn [written filter negb is_bar]. now rewrite app_nil_r.
        -- rewrite written_app. cbn [written filter negb is_bar]. now rewrite app_nil_r.
        -- rewrite filter_app, app_length, J9. reflexivity.
      * constructor; cbn [pr_bar pr_results pr_failing pr_ticks pr_out pr_wrote_first]; auto. rewrite J4. lia.
    + (* a tick *)
      assert (Hr : results_in (cs ++ [PTick]) = results_in cs) by (rewrite results_app; cbn; now rewrite app_nil_r).
      assert (Hf : failing_in (cs ++ [PTick]) = failing_in cs) by (rewrite failing_app; cbn; now rewrite app_nil_r).
      assert (Ht : ticks_in (cs ++ [PTick]) = (ticks_in cs + 1)%nat) by (rewrite ticks_app; reflexivity).
      unfold tick_progress. rewrite I1. destruct bar.
      * rewrite I2, I3, progress_item_ok. constructor; cbn [pr_bar pr_results pr_failing pr_ticks pr_out pr_wrote_first]; rewrite ?Hr, ?Hf, ?Ht; auto.
        -- rewrite I4. lia.
        -- intros X. apply in_app_iff in X as [X|[X|[]]]; [auto|discriminate X].
        -- rewrite flat_map_app, I6. cbn. now rewrite app_nil_r.
        -- rewrite written_app. cbn [written filter negb is_bar]. now rewrite app_nil_r.
        -- rewrite written_app. cbn [written filter negb is_bar]. now rewrite app_nil_r.
        -- rewrite filter_app, app_length, I9. reflexivity.
      * cbn [andb]. replace (pr_ticks p + 1 - 1) with (N.of_nat (ticks_in cs)) by (rewrite I4; lia). rewrite N_mod_nat.
        assert (C := ceil_step (ticks_in cs)). destruct (ticks_in cs mod 10 =? 0)%nat.
        -- rewrite I2, I3, progress_item_ok. set (x := IProgress _ _ _).
           destruct (sep_step (pr_out p) (pr_wrote_first p) x eq_refl eq_refl I7 I8) as [S1 S2].
           constructor; cbn [pr_bar pr_results pr_failing pr_ticks pr_out pr_wrote_first]; rewrite ?Hr, ?Hf, ?Ht; auto.
           ++ rewrite I4. lia.
           ++ intros X. apply in_app_iff in X as [X|X]; [auto|]. apply in_app_iff in X as [X|[X|[]]]; [|discriminate X].
              destruct (pr_wrote_first p); [destruct X as [X|[]]; discriminate X|destruct X].
           ++ rewrite !flat_map_app, I6. destruct (pr_wrote_first p); cbn; now rewrite app_nil_r.
           ++ rewrite S1. split; [intros _ X; now apply app_eq_nil in X as [_ X]|auto].
           ++ rewrite !filter_app, !app_length, I9, C. destruct (pr_wrote_first p); reflexivity.
        -- constructor; cbn [pr_bar pr_results pr_failing pr_ticks pr_out pr_wrote_first]; rewrite ?Hr, ?Hf, ?Ht; auto.
           ++ rewrite I4. lia.
           ++ rewrite I9, C. lia.
Qed.

(* ---- summaries ---- *)

Lemma trailing_zero s : trailing_newlines (rev s) = 0 <-> ~ exists a b, s = a ++ [10] ++ b /\ forallb ascii_ws b = true.
Proof.
  induction s as [|c s IH] using rev_ind.
  - cbn. split; [|reflexivity]. intros _ (a & b & E & _). destruct a; discriminate E.
  - rewrite rev_app_distr. cbn [rev app trailing_newlines]. destruct (ascii_ws c) eqn:W.
    + destruct (N.eqb_spec c nl) as [->|N].
      * split; [intros X; lia|]. intros H. contradiction H. exists s, []. split; reflexivity.
      * rewrite N.add_0_l, IH. split; intros H (a & b & E & B); apply H.
        -- destruct b as [|y b] using rev_ind.
           ++ cbn [app] in E. apply app_inj_tail in E as [_ E]. contradiction.
           ++ clear IHb. rewrite app_comm_cons, app_assoc in E. apply app_inj_tail in E as [-> <-]. exists a, b. split; [reflexivity|].
              rewrite forallb_app in B. now apply andb_true_iff in B as [B _].
        -- exists a, (b ++ [c]). rewrite E, <- !app_assoc. split; [reflexivity|]. rewrite forallb_app, B. cbn. now rewrite W.
    + split; [|reflexivity]. intros _ (a & b & E & B). destruct b as [|y b] using rev_ind.
      * cbn [app] in E. apply app_inj_tail in E as [_ ->]. discriminate W.
      * rewrite app_comm_cons, app_assoc in E. apply app_inj_tail in E as [_ <-]. rewrite forallb_app in B. apply andb_true_iff in B as [_ B]. cbn in B. rewrite W in B. discriminate B.
Qed.

Lemma push_newline_spec s : whole_lines (s ++ push_newline_if_needed s) <-> ~ ends_with_newline_then_blanks s.
Proof.
  unfold push_newline_if_needed. destruct (N.eqb_spec (trailing_newlines (rev s)) 0) as [Z|Z].
  - apply trailing_zero in Z. split.
    + intros _ (a & b & E & _ & B & _). apply Z. now exists a, b.
    + intros _. right. now exists s.
  - rewrite app_nil_r.
    assert (X : exists a b, s = a ++ [10] ++ b /\ forallb ascii_ws b = true /\ ~ In 10 b).
    { clear - Z. induction s as [|c s IH] using rev_ind; [now contradiction Z|].
      rewrite rev_app_distr in Z. cbn [rev app trailing_newlines] in Z. destruct (ascii_ws c) eqn:W; [|now contradiction Z].
      destruct (N.eqb_spec c nl) as [->|N].
      - exists s, []. repeat split. intros [].
      - rewrite N.add_0_l in Z. destruct (IH Z) as (a & b & -> & B & I). exists a, (b ++ [c]). rewrite <- !app_assoc. split; [reflexivity|].
        split; [rewrite forallb_app, B; cbn; now rewrite W|]. rewrite in_app_iff. intros [K|[K|[]]]; [auto|now apply N]. }
    destruct X as (a & b & -> & B & I). split.
    + intros [K|(s' & K)] (a' & b' & E & Nb & B' & I').
      * destruct a; discriminate K.
      * rewrite E in K. destruct b' as [|y b'] using rev_ind; [now apply Nb|]. rewrite !app_assoc in K. apply app_inj_tail in K as [_ ->].
        apply I'. rewrite in_app_iff. right. now left.
    + intros H. right. destruct b as [|y b]; [exists a; now rewrite app_nil_r|].
      contradiction H. exists a, (y :: b). repeat split; auto. discriminate.
Qed.
