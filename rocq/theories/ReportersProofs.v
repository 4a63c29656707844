(* Proofs for C79. *)
From Verif Require Import Base StatusModel TermModel ReportModel ReportSpec ReportProofs ReportersModel ReportersSpec.
From Verif Require PoolModel.
From Coq Require Import ZArith NArith Sorting.Sorted.
Open Scope nat_scope.

Lemma text_eqb_refl t : text_eqb t t = true.
Proof. induction t as [|x t IH]; simpl; auto. now rewrite N.eqb_refl. Qed.
Lemma text_eqb_eq a : forall b, text_eqb a b = true <-> a = b.
Proof.
  induction a as [|x a IH]; intros [|y b]; simpl; split; try discriminate; auto.
  - intros H. apply andb_prop in H as [H1 H2]. apply N.eqb_eq in H1. apply IH in H2. congruence.
  - intros [= -> ->]. rewrite N.eqb_refl. simpl. now apply IH.
Qed.

(* ---- one case ---- *)
Lemma quot_bounds n d : (0 <= n)%Z -> (Z.quot n (Zpos d) * Zpos d <= n < (Z.quot n (Zpos d) + 1) * Zpos d)%Z.
Proof.
  intros H. rewrite Z.quot_div_nonneg by lia. pose proof (Z.div_mod n (Zpos d) ltac:(lia)) as E. pose proof (Z.mod_pos_bound n (Zpos d) ltac:(lia)). nia.
Qed.
Lemma duration_shown t : time_shown t (duration t).
Proof.
  destruct t as [n d|n]; simpl.
  - intros H0 H1. unfold from_float. pose proof (quot_bounds n d H0) as B.
    assert (L : (Z.quot n (Zpos d) <= MAX64)%Z) by (rewrite Z.quot_div_nonneg by lia; apply Z.div_le_upper_bound; unfold MAX64; lia).
    assert (G : (0 <= Z.quot n (Zpos d))%Z) by (apply Z.quot_pos; lia).
    rewrite Z.min_r by exact L. rewrite Z.max_r by (unfold MIN64; lia). nia.
  - intros [H0 H1]. unfold from_u64. destruct (Z.leb_spec n MAX64) as [L|L]; [reflexivity|unfold MAX64 in L; lia].
Qed.
Lemma case_says strip r : says strip r (junit_case strip r).
Proof.
  unfold says, junit_case. cbn zeta. destruct (f_status r) eqn:E; cbn [c_name c_time c_verdict]; repeat split; auto; try discriminate; try congruence; try (intros [?|[?|?]]; congruence);
    try (intros; apply duration_shown); try (intros; eexists; reflexivity).
Qed.
Lemma cases_say strip rs : Forall2 (says strip) rs (map (junit_case strip) rs).
Proof. induction rs; simpl; constructor; auto. apply case_says. Qed.

(* ---- what the reporters are told ---- *)
Definition grown (must : bool) strip (rs : list (nat * full)) (a b : reporter) : Prop :=
  match a, b with
  | RStdout k t, RStdout k' t' => k = k' /\ exists l, t' = t ++ l /\ map fst l = rs /\ (must = true -> forall x, In x l -> snd x = true)
  | RJUnit p s, RJUnit p' s' => p = p' /\ j_name s = j_name s' /\ j_cases s' = j_cases s ++ map (junit_case strip) (map snd rs)
  | RJson p t, RJson p' t' => p = p' /\ t' = t ++ map snd rs
  | _, _ => False
  end.
Lemma grown_nil must strip a : grown must strip [] a a.
Proof. destruct a; simpl; rewrite ?app_nil_r; auto. split; auto. exists []. rewrite app_nil_r. split; [reflexivity|split; [reflexivity|]]. intros _ x Hx. destruct Hx. Qed.
Lemma grown_app must strip rs rs' a b c : grown must strip rs a b -> grown must strip rs' b c -> grown must strip (rs ++ rs') a c.
Proof.
  destruct a as [k t|p s|p t], b as [k1 t1|p1 s1|p1 t1], c as [k2 t2|p2 s2|p2 t2]; cbn [grown]; try tauto.
  - intros [-> (l & -> & E & O)] [-> (l' & -> & E' & O')]. split; auto. exists (l ++ l'). rewrite app_assoc, map_app, E, E'. repeat split; auto.
    intros M x I. apply in_app_or in I as [I|I]; auto.
  - intros (-> & -> & ->) (-> & -> & ->). rewrite !map_app, app_assoc. auto.
  - intros [-> ->] [-> ->]. now rewrite map_app, app_assoc.
Qed.
Lemma push_grown must strip ok n r a : (must = true -> snd (push strip ok n r a) = true) -> grown must strip [(n, r)] a (fst (push strip ok n r a)).
Proof. destruct a; simpl; auto. intros H. split; auto. exists [(n, r, ok)]. repeat split; auto. intros M x [<-|[]]. auto. Qed.

Lemma all_grown_refl must strip reps : Forall2 (grown must strip []) reps reps.
Proof. induction reps; constructor; auto. apply grown_nil. Qed.
Lemma all_grown_app must strip rs rs' a b c : Forall2 (grown must strip rs) a b -> Forall2 (grown must strip rs') b c -> Forall2 (grown must strip (rs ++ rs')) a c.
Proof.
  intros H. revert c. induction H as [|x y a b H1 H IH]; intros c H2; inversion H2; subst; constructor; eauto using grown_app.
Qed.
Lemma tell_all_grown strip w n r reps : forall i, Forall2 (grown false strip [(n, r)]) reps (tell_all strip w i n r reps).
Proof. induction reps as [|rep t IH]; intros i; simpl; constructor; auto. apply push_grown. discriminate. Qed.
Lemma fold_tell_grown strip w n rs : forall reps, Forall2 (grown false strip (map (fun r => (n, r)) rs)) reps (fold_left (fun reps r => tell_all strip w 0 n r reps) rs reps).
Proof.
  induction rs as [|r rs IH]; intros reps; cbn [fold_left map]; [apply all_grown_refl|]. change ((n, r) :: ?x) with ([(n, r)] ++ x). eapply all_grown_app; [apply tell_all_grown|apply IH].
Qed.
Lemma batch_grown strip w l : forall reps reps', handle_batch strip w reps l = Some reps' -> Forall2 (grown false strip (attempts_of l)) reps reps'.
Proof.
  induction l as [|a l IH]; intros reps reps'; cbn [handle_batch].
  - intros [= ->]. apply all_grown_refl.
  - destruct (handle_associated strip w reps a) as [reps1|] eqn:E; [|discriminate]. intros H. cbn [attempts_of flat_map]. eapply all_grown_app; [|apply IH; exact H].
    unfold handle_associated in E. destruct (fa_results a) as [|r rs] eqn:F; [discriminate|]. injection E as <-. exact (fold_tell_grown strip w (fa_run a) (r :: rs) reps).
Qed.
Lemma work_grown strip w bs : forall reps reps', work_forever strip w reps bs = Some reps' -> Forall2 (grown false strip (attempts_of (concat bs))) reps reps'.
Proof.
  induction bs as [|b bs IH]; intros reps reps'; cbn [work_forever].
  - intros [= ->]. apply all_grown_refl.
  - destruct (handle_batch strip w reps b) as [reps1|] eqn:E; [|discriminate]. intros H. cbn [concat]. unfold attempts_of. rewrite flat_map_app.
    eapply all_grown_app; [eapply batch_grown, E|apply IH; exact H].
Qed.
Lemma attempts_results l : map snd (attempts_of l) = results_of l.
Proof. unfold attempts_of, results_of. induction l as [|a l IH]; simpl; auto. rewrite map_app, IH, map_map, map_id. reflexivity. Qed.
Lemma work_total strip w bs : forall reps, (forall a, In a (concat bs) -> fa_results a <> []) -> exists reps', work_forever strip w reps bs = Some reps'.
Proof.
  assert (B : forall l reps, (forall a, In a l -> fa_results a <> []) -> exists reps', handle_batch strip w reps l = Some reps').
  { induction l as [|a l IH]; intros reps H; cbn [handle_batch]; [eauto|]. unfold handle_associated. destruct (fa_results a) as [|r rs] eqn:F; [now apply H in F; [|left]|].
    apply IH. intros x Hx. apply H. now right. }
  induction bs as [|b bs IH]; intros reps H; cbn [work_forever]; [eauto|]. destruct (B b reps) as [reps1 E]; [intros a Ha; apply H; cbn [concat]; apply in_or_app; auto|]. rewrite E.
  apply IH. intros a Ha. apply H. cbn [concat]. apply in_or_app. auto.
Qed.

(* when nobody fails, abq report tells as abq test does *)
Lemma tell_until_grown strip w n r reps : forall i reps', tell_until strip w i n r reps = (reps', true) -> Forall2 (grown true strip [(n, r)]) reps reps'.
Proof.
  induction reps as [|rep t IH]; intros i reps'; cbn [tell_until]; [intros [= <-]; constructor|].
  destruct (push strip (w i (told_before rep)) n r rep) as [rep' ok] eqn:P. destruct ok; [|discriminate]. destruct (tell_until strip w (S i) n r t) as [t' ok'] eqn:E. intros [= <- ->].
  constructor; [|eapply IH, E]. pose proof (push_grown true strip (w i (told_before rep)) n r rep) as G. rewrite P in G. now apply G.
Qed.
Lemma tell_results_grown strip w n rs : forall reps reps', tell_results strip w n rs reps = (reps', true) -> Forall2 (grown true strip (map (fun r => (n, r)) rs)) reps reps'.
Proof.
  induction rs as [|r rs IH]; intros reps reps'; cbn [tell_results map]; [intros [= <-]; apply all_grown_refl|].
  destruct (tell_until strip w 0 n r reps) as [reps1 ok] eqn:E. destruct ok; [|discriminate]. intros H. change ((n, r) :: ?x) with ([(n, r)] ++ x). eapply all_grown_app; [eapply tell_until_grown, E|apply IH, H].
Qed.
Lemma tell_report_grown strip w l : forall reps reps', tell_report strip w l reps = (reps', true) -> Forall2 (grown true strip (attempts_of l)) reps reps'.
Proof.
  induction l as [|a l IH]; intros reps reps'; cbn [tell_report]; [intros [= <-]; apply all_grown_refl|].
  destruct (tell_results strip w (fa_run a) (fa_results a) reps) as [reps1 ok] eqn:E. destruct ok; [|discriminate]. intros H. cbn [attempts_of flat_map].
  eapply all_grown_app; [eapply tell_results_grown, E|apply IH, H].
Qed.
Lemma tell_until_fine strip w n r reps : (forall i m, w i m = true) -> forall i, snd (tell_until strip w i n r reps) = true.
Proof.
  intros W. induction reps as [|rep t IH]; intros i; cbn [tell_until]; auto. specialize (IH (S i)). destruct (tell_until strip w (S i) n r t) as [t' ok']. cbn [snd] in IH. subst ok'.
  rewrite W. destruct rep; reflexivity.
Qed.
Lemma tell_report_fine strip w l : (forall i m, w i m = true) -> forall reps, exists reps', tell_report strip w l reps = (reps', true).
Proof.
  intros W. assert (R : forall n rs reps, exists reps', tell_results strip w n rs reps = (reps', true)).
  { intros n rs. induction rs as [|r rs IH]; intros reps; cbn [tell_results]; [eauto|]. pose proof (tell_until_fine strip w n r reps W 0) as E. destruct (tell_until strip w 0 n r reps) as [reps1 ok]. cbn [snd] in E. subst ok. apply IH. }
  induction l as [|a l IH]; intros reps; cbn [tell_report]; [eauto|]. destruct (R (fa_run a) (fa_results a) reps) as [reps1 ->]. apply IH.
Qed.

(* ---- files ---- *)
Definition content_of (info : option nat) (rep : reporter) : option content :=
  match rep with RStdout _ _ => None | RJUnit _ s => Some (JUnitFile s) | RJson _ t => Some (JsonFile t info) end.

Lemma write_same fs p c : write_file fs p c p = Some c.
Proof. unfold write_file. now rewrite text_eqb_refl. Qed.
Lemma write_other fs p q c : q <> p -> write_file fs p c q = fs q.
Proof. intros N. unfold write_file. destruct (text_eqb q p) eqn:E; auto. apply text_eqb_eq in E. congruence. Qed.

Lemma finish_leaves e info rep fs q : path_of rep <> Some q \/ e = FinNoDir \/ e = FinNoOpen -> fst (finish e info rep fs) q = fs q.
Proof.
  intros H. destruct rep as [k t|p s|p t]; cbn [finish]; auto; cbn [path_of] in H.
  - destruct e; cbn [fst]; auto; apply write_other; intros ->; destruct H as [H|[H|H]]; congruence.
  - destruct e; cbn [fst]; auto; apply write_other; intros ->; destruct H as [H|[H|H]]; congruence.
Qed.
Lemma finish_writes info rep fs p : path_of rep = Some p -> fst (finish FinOk info rep fs) p = content_of info rep.
Proof. destruct rep as [k t|q s|q t]; cbn [path_of finish fst content_of]; [discriminate| |]; intros [= ->]; apply write_same. Qed.
Lemma finish_ok e info rep fs : snd (finish e info rep fs) = fine e.
Proof. destruct rep, e; reflexivity. Qed.

Lemma finish_all_leaves fin info q reps : forall i fs,
  (forall j rep, nth_error reps j = Some rep -> path_of rep = Some q -> fin (i + j) = FinNoDir \/ fin (i + j) = FinNoOpen) ->
  fst (finish_all fin i info reps fs) q = fs q.
Proof.
  induction reps as [|rep t IH]; intros i fs H; cbn [finish_all]; auto.
  destruct (finish (fin i) info rep fs) as [fs1 ok] eqn:E. destruct (finish_all fin (S i) info t fs1) as [fs2 errs] eqn:F. cbn [fst].
  transitivity (fs1 q).
  - pose proof (IH (S i) fs1) as X. rewrite F in X. apply X. intros j rep' N P. replace (S i + j) with (i + S j) by lia. apply (H (S j) rep'); auto.
  - pose proof (finish_leaves (fin i) info rep fs q) as X. rewrite E in X. apply X. destruct (path_of rep) as [p|] eqn:P; [|left; discriminate].
    destruct (text_eqb p q) eqn:Q.
    + apply text_eqb_eq in Q as ->. right. specialize (H 0 rep eq_refl P). now rewrite Nat.add_0_r in H.
    + left. intros [= ->]. now rewrite text_eqb_refl in Q.
Qed.
Lemma finish_all_writes fin info p reps : forall i k fs rep, nth_error reps k = Some rep -> path_of rep = Some p -> fin (i + k) = FinOk ->
  (forall j rep', k < j -> nth_error reps j = Some rep' -> path_of rep' = Some p -> fin (i + j) = FinNoDir \/ fin (i + j) = FinNoOpen) ->
  fst (finish_all fin i info reps fs) p = content_of info rep.
Proof.
  induction reps as [|r0 t IH]; intros i k fs rep N P O U; [destruct k; discriminate|]. cbn [finish_all].
  destruct (finish (fin i) info r0 fs) as [fs1 ok] eqn:E. destruct (finish_all fin (S i) info t fs1) as [fs2 errs] eqn:F. cbn [fst]. destruct k as [|k].
  - injection N as ->. rewrite Nat.add_0_r in O. pose proof (finish_all_leaves fin info p t (S i) fs1) as X. rewrite F in X. cbn [fst] in X. rewrite X.
    + pose proof (finish_writes info rep fs p P) as Y. rewrite O in E. now rewrite E in Y.
    + intros j rep' N' P'. replace (S i + j) with (i + S j) by lia. apply (U (S j) rep'); auto. lia.
  - pose proof (IH (S i) k fs1 rep N P) as X. rewrite F in X. apply X; [now replace (S i + k) with (i + S k) by lia|].
    intros j rep' L N' P'. replace (S i + j) with (i + S j) by lia. apply (U (S j) rep'); auto. lia.
Qed.
Lemma finish_all_errors fin info reps : forall i fs, snd (finish_all fin i info reps fs) = filter (fun j => negb (fine (fin j))) (seq i (length reps)).
Proof.
  induction reps as [|rep t IH]; intros i fs; cbn [finish_all length seq filter]; auto.
  pose proof (finish_ok (fin i) info rep fs) as K. destruct (finish (fin i) info rep fs) as [fs1 ok]. cbn [snd] in K. subst ok.
  specialize (IH (S i) fs1). destruct (finish_all fin (S i) info t fs1) as [fs2 errs]. cbn [snd] in *. subst errs. now destruct (fine (fin i)).
Qed.

(* finishing until the first failure *)
Lemma finish_until_all fin info reps : forall i fs fs', finish_until fin i info reps fs = (fs', true) -> finish_all fin i info reps fs = (fs', []) /\ forall j, j < length reps -> fin (i + j) = FinOk.
Proof.
  induction reps as [|rep t IH]; intros i fs fs'; cbn [finish_until finish_all length]; [intros [= ->]; split; auto; lia|].
  pose proof (finish_ok (fin i) info rep fs) as K. destruct (finish (fin i) info rep fs) as [fs1 ok]. cbn [snd] in K. destruct ok; [|discriminate]. intros H. apply IH in H as [H1 H2]. rewrite H1. split; auto.
  intros [|j] L; [rewrite Nat.add_0_r; destruct (fin i); simpl in K; congruence|]. replace (i + S j) with (S i + j) by lia. apply H2. lia.
Qed.
Lemma finish_until_fine fin info reps : forall i fs, (forall j, j < length reps -> fin (i + j) = FinOk) -> exists fs', finish_until fin i info reps fs = (fs', true).
Proof.
  induction reps as [|rep t IH]; intros i fs H; cbn [finish_until]; [eauto|].
  pose proof (finish_ok (fin i) info rep fs) as K. destruct (finish (fin i) info rep fs) as [fs1 ok]. cbn [snd] in K. subst ok. pose proof (H 0 ltac:(cbn; lia)) as O. rewrite Nat.add_0_r in O. rewrite O. cbn [fine].
  apply IH. intros j L. replace (S i + j) with (i + S j) by lia. apply H. cbn. lia.
Qed.
Lemma finish_until_first fin info reps k : forall i fs, k < length reps -> fin (i + k) <> FinOk -> (forall j, j < k -> fin (i + j) = FinOk) ->
  exists fs', finish_until fin i info reps fs = (fs', false) /\
    (forall j rep p, j < k -> nth_error reps j = Some rep -> path_of rep = Some p ->
       (forall j' rep', j < j' <= k -> nth_error reps j' = Some rep' -> path_of rep' <> Some p) -> fs' p = content_of info rep) /\
    (forall p, (forall j rep, j <= k -> nth_error reps j = Some rep -> path_of rep <> Some p) -> fs' p = fs p).
Proof.
  revert k. induction reps as [|rep t IH]; intros k i fs L B G; [cbn in L; lia|]. cbn [finish_until].
  pose proof (finish_ok (fin i) info rep fs) as K. pose proof (fun q => finish_leaves (fin i) info rep fs q) as LV. pose proof (fun p => finish_writes info rep fs p) as WR.
  destruct (finish (fin i) info rep fs) as [fs1 ok] eqn:E. cbn [snd fst] in K, LV. subst ok. destruct k as [|k].
  - rewrite Nat.add_0_r in B. destruct (fin i) eqn:F; [congruence| | |]; cbn [fine]; (exists fs1; split; [reflexivity|]; split; [intros; lia|]; intros p H; apply LV; left; apply (H 0); auto).
  - pose proof (G 0 ltac:(lia)) as O. rewrite Nat.add_0_r in O. rewrite O in *. cbn [fine]. rewrite E in WR. cbn [fst] in WR.
    destruct (IH k (S i) fs1) as (fs' & R & W & U); [cbn in L; lia|now replace (S i + k) with (i + S k) by lia|intros j Lj; replace (S i + j) with (i + S j) by lia; apply G; lia|].
    exists fs'. split; [exact R|]. split.
    + intros [|j] rep' p Lj N P D.
      * injection N as ->. rewrite U; [now apply WR|]. intros j rep'' Lj' N'. apply (D (S j)); auto. lia.
      * apply (W j rep' p); auto; [lia|]. intros j' rep'' Lj' N'. apply (D (S j')); auto. lia.
    + intros p D. rewrite U.
      * apply LV. left. apply (D 0); auto. lia.
      * intros j rep' Lj N. apply (D (S j)); auto. lia.
Qed.

(* ---- built reporters ---- *)
Lemma filter_map_app {A B} (f : A -> option B) l l' : filter_map f (l ++ l') = filter_map f l ++ filter_map f l'.
Proof. induction l as [|a l IH]; simpl; auto. destruct (f a); simpl; now rewrite IH. Qed.
Definition fresh (rep : reporter) : Prop := match rep with RStdout _ t => t = [] | RJUnit _ s => j_cases s = [] | RJson _ t => t = [] end.
Lemma built_fresh kinds n : Forall fresh (build_reporters kinds n).
Proof.
  unfold build_reporters. generalize (existsb (outputs_to_stdout n) kinds). intros b. induction kinds as [|k ks IH]; simpl; [constructor|]. destruct k, b; simpl; try constructor; auto; reflexivity.
Qed.
Lemma built_for k1 k k2 n : k <> RkDefault -> exists r1 rep r2, build_reporters (k1 ++ k :: k2) n = r1 ++ rep :: r2 /\ is_for k rep.
Proof.
  intros N. unfold build_reporters. rewrite filter_map_app. set (b := existsb _ _). clearbody b.
  destruct k; try congruence; cbn [filter_map reporter_from_kind]; eexists _, _, _; (split; [reflexivity|]); cbn [is_for]; eauto.
Qed.
Lemma built_from kinds n rep : In rep (build_reporters kinds n) -> exists k, In k kinds /\ is_for k rep.
Proof.
  unfold build_reporters. generalize (existsb (outputs_to_stdout n) kinds). intros b. induction kinds as [|k ks IH]; simpl; [tauto|].
  destruct k, b; cbn [filter_map reporter_from_kind]; try (intros [<-|H]; [eexists; split; [left; reflexivity|cbn [is_for]; eauto]|]; apply IH in H as (k' & I & F); exists k'; auto);
    intros H; apply IH in H as (k' & I & F); exists k'; auto.
Qed.
Lemma built_terminal kinds n : (exists rep, In rep (build_reporters kinds n) /\ on_terminal rep) <-> has_stdout_reporters kinds n = true.
Proof.
  unfold build_reporters, has_stdout_reporters. set (b := existsb (outputs_to_stdout n) kinds). split.
  - intros (rep & I & (k & told & ->)). destruct b eqn:B; auto. exfalso. unfold b in B.
    assert (X : forall k', In k' kinds -> outputs_to_stdout n k' = false).
    { intros k' I'. destruct (outputs_to_stdout n k') eqn:E; auto. assert (existsb (outputs_to_stdout n) kinds = true) by (apply existsb_exists; eauto). congruence. }
    clear B. clearbody b. clear b. revert X I. induction kinds as [|k0 ks IH]; intros X I; [exact I|]. pose proof (X k0 (or_introl eq_refl)) as X0.
    destruct k0; cbn [filter_map reporter_from_kind outputs_to_stdout] in *; try discriminate; [|destruct I as [I|I]; [discriminate|]|destruct I as [I|I]; [discriminate|]]; apply IH; auto; intros k' I'; apply X; now right.
  - intros B. rewrite B. unfold b in B. clear b. apply existsb_exists in B as (k0 & I & O). induction kinds as [|k ks IH]; [destruct I|].
    destruct I as [<-|I].
    + destruct k; cbn [outputs_to_stdout] in O; try discriminate; cbn [filter_map reporter_from_kind]; eexists; (split; [left; reflexivity|]); eexists _, _; reflexivity.
    + destruct (IH I) as (rep & I' & T). exists rep. split; auto. cbn [filter_map]. destruct (reporter_from_kind true k); auto. now right.
Qed.

(* a grown fresh reporter holds what it was told *)
Lemma grown_content must strip rs info a b p : fresh a -> grown must strip rs a b -> path_of a = Some p -> path_of b = Some p /\ holds_report strip a (map snd rs) info (content_of info b).
Proof.
  destruct a as [k t|q s|q t], b as [k1 t1|q1 s1|q1 t1]; cbn [fresh grown path_of holds_report content_of]; try discriminate; try tauto.
  - intros F (-> & _ & C) [= ->]. split; auto. exists s1. split; auto. unfold says_all. rewrite C, F. apply cases_say.
  - intros F (-> & C) [= ->]. split; auto. now rewrite C, F.
Qed.

Lemma Forall2_length {A B} (R : A -> B -> Prop) l l' : Forall2 R l l' -> length l = length l'.
Proof. induction 1; simpl; auto. Qed.
Lemma Forall2_nth {A B} (R : A -> B -> Prop) l l' : Forall2 R l l' -> forall i a, nth_error l i = Some a -> exists b, nth_error l' i = Some b /\ R a b.
Proof. intros H. induction H as [|x y l l' H1 H IH]; intros [|i] a; simpl; try discriminate; [intros [= <-]; eauto|apply IH]. Qed.
Lemma Forall2_nth_r {A B} (R : A -> B -> Prop) l l' : Forall2 R l l' -> forall i b, nth_error l' i = Some b -> exists a, nth_error l i = Some a /\ R a b.
Proof. intros H. induction H as [|x y l l' H1 H IH]; intros [|i] a; simpl; try discriminate; [intros [= <-]; eauto|apply IH]. Qed.
Lemma grown_path must strip rs a b : grown must strip rs a b -> path_of a = path_of b.
Proof. destruct a, b; simpl; try tauto; intros [-> _]; reflexivity. Qed.

(* ---- counts ---- *)
Lemma says_counts strip rs s : says_all strip rs s ->
  junit_tests s = length rs /\ junit_failures s = number (has_status [Failure]) rs /\ junit_errors s = number (has_status [Error; TimedOut; PrivateNativeRunnerError]) rs.
Proof.
  unfold says_all, junit_tests, junit_failures, junit_errors, number. generalize (j_cases s) as cs. intros cs H.
  induction H as [|r c rs cs Hc H (I1 & I2 & I3)]; [auto|]. cbn [length filter]. rewrite I1. split; auto.
  assert (A : is_failure c = has_status [Failure] r /\ is_error c = has_status [Error; TimedOut; PrivateNativeRunnerError] r).
  { destruct Hc as (_ & Su & Sk & Fa & Er & _ & _). unfold is_failure, is_error, has_status. cbn [existsb].
    destruct (f_status r) eqn:E; cbn [orb].
    - destruct (Fa eq_refl) as [k ->]. auto.
    - rewrite (proj1 Su eq_refl). auto.
    - destruct (Er (or_introl eq_refl)) as [k ->]. auto.
    - rewrite (proj1 Sk (or_introl eq_refl)). auto.
    - rewrite (proj1 Sk (or_intror (or_intror eq_refl))). auto.
    - rewrite (proj1 Sk (or_intror (or_introl eq_refl))). auto.
    - destruct (Er (or_intror (or_introl eq_refl))) as [k ->]. auto.
    - destruct (Er (or_intror (or_intror eq_refl))) as [k ->]. auto. }
  destruct A as [-> ->]. destruct (has_status [Failure] r), (has_status [Error; TimedOut; PrivateNativeRunnerError] r); cbn [length]; rewrite I2, I3; auto.
Qed.

(* ---- the summaries printed ---- *)
Lemma pf_fail b n r t : is_fail_like (f_status r) = true -> print_failures b ((n, r) :: t) = (if b then [PBlank] else []) ++ PSummary n r :: print_failures true t.
Proof. cbn [print_failures]. destruct (f_status r); auto; discriminate. Qed.
Lemma pf_fine b n r t : is_fail_like (f_status r) = false -> print_failures b ((n, r) :: t) = print_failures b t.
Proof. cbn [print_failures]. destruct (f_status r); auto; discriminate. Qed.
Lemma print_true t : print_failures true t = [] \/ exists n r u, print_failures true t = PBlank :: PSummary n r :: u /\ separated (PSummary n r :: u).
Proof.
  induction t as [|[n r] t IH]; [now left|]. destruct (is_fail_like (f_status r)) eqn:F.
  - rewrite (pf_fail _ _ _ _ F). right. exists n, r, (print_failures true t). split; auto. destruct IH as [->|(n' & r' & u & -> & S1)]; [exact I|exact S1].
  - now rewrite (pf_fine _ _ _ _ F).
Qed.
Lemma print_false t : separated (print_failures false t).
Proof.
  induction t as [|[n r] t IH]; [exact I|]. destruct (is_fail_like (f_status r)) eqn:F.
  - rewrite (pf_fail _ _ _ _ F). cbn [app]. destruct (print_true t) as [->|(n' & r' & u & -> & S1)]; [exact I|exact S1].
  - now rewrite (pf_fine _ _ _ _ F).
Qed.
Lemma print_summaries t : forall b, summaries (print_failures b t) = filter (fun e => is_fail_like (f_status (snd e))) t.
Proof.
  induction t as [|[n r] t IH]; intros b; [reflexivity|]. cbn [filter snd]. destruct (is_fail_like (f_status r)) eqn:F.
  - rewrite (pf_fail _ _ _ _ F). destruct b; cbn [app summaries]; now rewrite IH.
  - now rewrite (pf_fine _ _ _ _ F).
Qed.

(* ---- the exit code and the JUnit file ---- *)
Lemma flat_plain l : flat (map plain l) = flat_map (fun a => map (fun r => {| e_run := fa_run a; e_work := fa_work a; e_result := f_res r |}) (fa_results a)) l.
Proof. unfold flat. induction l as [|a l IH]; simpl; auto. rewrite IH, map_map. reflexivity. Qed.

Lemma unique_filter {A} (f : A -> bool) (g : A -> nat) t es : NoDup (map g es) -> (forall e, f e = true -> g e = t) -> filter f es = [] \/ exists e, filter f es = [e] /\ In e es.
Proof.
  intros N H. assert (X : NoDup (map g (filter f es))).
  { clear H. induction es as [|e es IH]; simpl; [constructor|]. inversion N; subst. destruct (f e); simpl; auto. constructor; auto. intros I. apply H1. apply in_map_iff in I as (x & E & I). apply filter_In in I as [I _]. apply in_map_iff. eauto. }
  destruct (filter f es) as [|a [|b l]] eqn:F; auto.
  - right. exists a. split; auto. assert (In a (filter f es)) by (rewrite F; now left). now apply filter_In in H0.
  - exfalso. assert (Ia : In a (filter f es)) by (rewrite F; now left). assert (Ib : In b (filter f es)) by (rewrite F; right; now left).
    apply filter_In in Ia as [_ Ia]. apply filter_In in Ib as [_ Ib]. apply H in Ia, Ib. simpl in X. inversion X; subst. apply H2. left. congruence.
Qed.

Lemma exit_clean es k o1 o2 k' s : reaches es k -> Permutation (statuses k) o1 -> Permutation (statuses k) o2 -> suite_result k o1 o2 = (k', s) ->
  (forall e, In e es -> e_run e = 1) -> NoDup (map (fun e => r_id (e_result e)) es) ->
  (forall e e', In e es -> In e' es -> e_work e = e_work e' -> material e = false -> material e' = false) ->
  (s_exit s = 0 <-> forall e, In e es -> is_fail_like (r_status (e_result e)) = false).
Proof.
  intros R P1 P2 E RUN ND MK.
  assert (X : s_exit s = 0 <-> unreplaced es = [] /\ forall t, ~ taken_for_failed (attempts t es)).
  { destruct (suite_spec _ _ _ _ _ _ R P1 P2 E) as (-> & _). destruct (exit_spec es k (reaches_ti _ _ R)) as (_ & _ & X3). exact X3. }
  rewrite X. clear X. split.
  - intros [U T] e I. destruct (is_fail_like (r_status (e_result e))) eqn:F; auto. exfalso. destruct (material e) eqn:M.
    + apply (T (r_id (e_result e))). unfold attempts.
      destruct (unique_filter (of_test (r_id (e_result e))) (fun e => r_id (e_result e)) (r_id (e_result e)) es ND) as [Z|(e' & Z & I')].
      * intros x Hx. unfold of_test in Hx. apply andb_prop in Hx as [_ Hx]. now apply Nat.eqb_eq in Hx.
      * assert (In e (filter (of_test (r_id (e_result e))) es)) by (apply filter_In; split; auto; unfold of_test; rewrite M, Nat.eqb_refl; reflexivity). rewrite Z in H. destruct H.
      * assert (In e (filter (of_test (r_id (e_result e))) es)) by (apply filter_In; split; auto; unfold of_test; rewrite M, Nat.eqb_refl; reflexivity). rewrite Z in *. destruct H as [->|[]].
        cbn [map]. rewrite F, (RUN e I). exists [], []. repeat constructor.
    + assert (In e (unreplaced es)); [|rewrite U in H; destruct H]. apply unreplaced_in. apply in_split in I as (l1 & l2 & ->). exists l1, l2. split; auto. split; auto.
      intros e' I' M' W. assert (material e' = false); [|congruence]. apply (MK e e'); auto; apply in_or_app; right; [now left|now right].
  - intros H. split.
    + destruct (unreplaced es) as [|e l] eqn:U; auto. exfalso. assert (I : In e (unreplaced es)) by (rewrite U; now left). apply unreplaced_in in I as (l1 & l2 & -> & M & _).
      assert (F : is_fail_like (r_status (e_result e)) = false) by (apply H; apply in_or_app; right; now left). unfold material in M. destruct (r_status (e_result e)); simpl in *; discriminate.
    + intros t (ps & fs & Q & _). assert (I : In (1, true) (attempts t es)) by (rewrite Q; apply in_or_app; right; now left).
      unfold attempts in I. apply in_map_iff in I as (e & [= _ F] & I). apply filter_In in I as [I _]. rewrite (H e I) in F. discriminate.
Qed.

Lemma reaches_fold es : reaches es (fold_left account_entry es tracker_new).
Proof. induction es as [|e es IH] using rev_ind; [constructor|]. rewrite fold_left_app. cbn [fold_left]. now constructor. Qed.

(* ---- the native runners' output ---- *)
Lemma pool_process {info} (rs : list (PoolModel.runner_exit info)) : forall a id,
  PoolModel.a_process (PoolModel.pool_loop a id rs) = PoolModel.a_process a ++ combine (seq id (length rs)) (map written rs).
Proof.
  induction rs as [|r rs IH]; intros a id; cbn [PoolModel.pool_loop length seq map combine]; [now rewrite app_nil_r|]. rewrite IH. destruct r; cbn [PoolModel.pool_step PoolModel.a_process written]; now rewrite <- app_assoc.
Qed.
Lemma output_lives {info} (rs : list (PoolModel.runner_exit info)) : forall pipes id i,
  flat_map (output_of i) (lives pipes id rs) = if pipes then flat_map (fun e => if Nat.eqb (fst e) i then [snd e] else []) (combine (seq id (length rs)) (map written rs)) else [].
Proof.
  induction rs as [|r rs IH]; intros pipes id i; cbn [lives flat_map length seq map combine]; [destruct pipes; reflexivity|]. rewrite flat_map_app, IH.
  destruct pipes; [|destruct r; reflexivity]. f_equal. destruct r as [c m f p x|e o x]; cbn [live negb written fst snd]; [|simpl; now destruct (Nat.eqb id i)].
  destruct m; simpl; now destruct (Nat.eqb id i).
Qed.
Lemma output_end pipes i os : flat_map (output_of i) (end_outputs pipes os) =
  if pipes then [] else flat_map (fun e => if Nat.eqb (fst e) i then match snd e with [] => [] | o => [o] end else []) os.
Proof.
  induction os as [|[j o] os IH]; cbn [end_outputs flat_map fst snd]; [destruct pipes; reflexivity|]. unfold end_outputs in IH. rewrite flat_map_app, IH.
  destruct pipes; cbn [orb]; auto. f_equal. destruct o; simpl; destruct (Nat.eqb j i); reflexivity.
Qed.
Lemma end_manifest_output i o : flat_map (output_of i) (end_manifest o) = [].
Proof. destruct o as [[j o]|]; simpl; auto. destruct (blank_bytes o); reflexivity. Qed.
Lemma select_nth {A B} (g : A -> list B) (l : list A) : forall id i x, nth_error l i = Some x ->
  flat_map (fun e => if Nat.eqb (fst e) (id + i) then g (snd e) else []) (combine (seq id (length l)) l) = g x.
Proof.
  assert (Z : forall l id j, j < id -> flat_map (fun e => if Nat.eqb (fst e) j then g (snd e) else []) (combine (seq id (length l)) l) = []).
  { clear l. induction l as [|y l IH]; intros id j L; cbn [length seq combine flat_map fst snd]; auto. destruct (Nat.eqb_spec id j); [lia|]. cbn [app]. apply IH. lia. }
  induction l as [|y l IH]; intros id [|i] x; cbn [nth_error length seq combine flat_map fst snd]; try discriminate.
  - intros [= ->]. rewrite Nat.add_0_r, Nat.eqb_refl. rewrite (Z l (S id) id) by lia. apply app_nil_r.
  - intros H. destruct (Nat.eqb_spec id (id + S i)); [lia|]. cbn [app]. replace (id + S i) with (S id + i) by lia. now apply IH.
Qed.

(* a sort as asked for *)
Fixpoint fins (a : fassoc) (l : list fassoc) : list fassoc :=
  match l with [] => [a] | x :: t => match acmp (plain a) (plain x) with Gt => x :: fins a t | _ => a :: l end end.
Definition fisort (l : list fassoc) : list fassoc := fold_right fins [] l.
Lemma fins_perm a l : Permutation (a :: l) (fins a l).
Proof. induction l as [|x t IH]; simpl; auto. destruct (acmp (plain a) (plain x)); auto. rewrite perm_swap. now constructor. Qed.
Lemma fins_sorted a l : StronglySorted (fun a b => ale (plain a) (plain b)) l -> StronglySorted (fun a b => ale (plain a) (plain b)) (fins a l).
Proof.
  induction l as [|x t IH]; intros S0; simpl; [repeat constructor|]. inversion S0 as [|? ? S' F]; subst. destruct (acmp (plain a) (plain x)) eqn:E.
  - constructor; auto. constructor; [unfold ale; congruence|]. rewrite Forall_forall in *. intros y Y. apply ale_trans with (plain x); auto. unfold ale; congruence.
  - constructor; auto. constructor; [unfold ale; congruence|]. rewrite Forall_forall in *. intros y Y. apply ale_trans with (plain x); auto. unfold ale; congruence.
  - constructor; auto. rewrite Forall_forall in *. intros y Y. apply (Permutation_in _ (Permutation_sym (fins_perm a t))) in Y as [<-|Y]; auto.
    destruct (ale_total (plain a) (plain x)) as [Q|Q]; auto. now contradiction Q.
Qed.
Lemma fisort_sorter : fsorter fisort.
Proof.
  intros l. split.
  - induction l as [|a l IH]; simpl; auto. rewrite <- fins_perm. now constructor.
  - induction l as [|a l IH]; simpl; [constructor|]. now apply fins_sorted.
Qed.

(* the entries of a run in which every test was run once *)
Definition fentries (l : list fassoc) : list entry := flat (map plain l).
Lemma in_fentries l e : In e (fentries l) <-> exists a r, In a l /\ In r (fa_results a) /\ e = {| e_run := fa_run a; e_work := fa_work a; e_result := f_res r |}.
Proof.
  unfold fentries. rewrite flat_plain, in_flat_map. split.
  - intros (a & I & J). apply in_map_iff in J as (r & <- & J). eauto.
  - intros (a & r & I & J & ->). exists a. split; auto. apply in_map_iff. eauto.
Qed.
Lemma fentries_ids l : map (fun e => r_id (e_result e)) (fentries l) = map (fun r => r_id (f_res r)) (results_of l).
Proof. unfold fentries. rewrite flat_plain. unfold results_of. induction l as [|a l IH]; simpl; auto. now rewrite !map_app, IH, map_map. Qed.
Lemma run_once_perm l l' : Permutation l l' -> run_once l -> run_once l'.
Proof.
  intros P (A & B & C). assert (Q : forall a, In a l' -> In a l) by (intros a; apply Permutation_in; now symmetry). repeat split.
  - auto.
  - eapply Permutation_NoDup; [|exact B]. apply Permutation_map. unfold results_of. now apply Permutation_flat_map.
  - intros a b r r' I J. apply C; auto.
Qed.
Lemma exit_once l order : fwalks order -> run_once l ->
  let k := fold_left handle_account (map plain l) tracker_new in
  (s_exit (snd (suite_result k (order k) (order k))) = 0 <-> forall r, In r (results_of l) -> is_fail_like (f_status r) = false).
Proof.
  intros W (A & B & C) k. assert (R : reaches (fentries l) k) by (unfold k; rewrite flat_account; apply reaches_fold).
  destruct (suite_result k (order k) (order k)) as [k' s] eqn:E. cbn [snd]. rewrite (exit_clean _ _ _ _ _ _ R (W k) (W k) E).
  - split.
    + intros H r I. unfold results_of in I. apply in_flat_map in I as (a & I & J). apply (H {| e_run := fa_run a; e_work := fa_work a; e_result := f_res r |}). apply in_fentries. eauto.
    + intros H e I. apply in_fentries in I as (a & r & I & J & ->). apply (H r). unfold results_of. apply in_flat_map. eauto.
  - intros e I. apply in_fentries in I as (a & r & I & J & ->). now apply A.
  - now rewrite fentries_ids.
  - intros e e' I I' Wk M. apply in_fentries in I as (a & r & I & J & ->). apply in_fentries in I' as (a' & r' & I' & J' & ->). cbn [e_work] in Wk.
    assert (X : f_status r = PrivateNativeRunnerError) by (unfold material in M; cbn [e_result] in M; unfold f_status; destruct (r_status (f_res r)); cbn in M; congruence).
    pose proof (C a a' r r' I I' J J' Wk X) as Y. unfold material. cbn [e_result]. unfold f_status in Y. now rewrite Y.
Qed.
Lemma number_zero {A} (f : A -> bool) l : number f l = 0 <-> forall x, In x l -> f x = false.
Proof.
  unfold number. induction l as [|a l IH]; simpl; [tauto|]. destruct (f a) eqn:F; simpl.
  - split; [discriminate|]. intros H. rewrite (H a) in F; auto; discriminate.
  - rewrite IH. split; [intros H x [<-|I]; auto|auto].
Qed.
