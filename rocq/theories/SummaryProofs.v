From Verif Require Import Base SummaryModel SummarySpec.
From Verif Require ReportModel ReportSpec ReportProofs ReportProps.
From Coq Require Import NArith String Sorting.Sorted DecimalN Lia.
Open Scope N_scope.

(* ---- texts ---- *)
Lemma eqb_iff a b : text_eqb a b = true <-> a = b.
Proof.
  revert b. induction a as [|x a IH]; intros [|y b]; cbn; try easy. rewrite andb_true_iff, N.eqb_eq, IH.
  split; [intros [-> ->]; auto | intros E; injection E; auto].
Qed.
Lemma eqb_refl a : text_eqb a a = true. Proof. now apply eqb_iff. Qed.
Lemma cmp_eq a b : text_cmp a b = Eq <-> a = b.
Proof.
  revert b. induction a as [|x a IH]; intros [|y b]; cbn; try easy. destruct (N.compare_spec x y) as [->|L|L].
  - rewrite IH. split; [now intros ->|now intros E; injection E].
  - split; [easy|]. intros E. injection E as -> ->. lia.
  - split; [easy|]. intros E. injection E as -> ->. lia.
Qed.
Lemma cmp_anti a b : text_cmp b a = CompOpp (text_cmp a b).
Proof. revert b. induction a as [|x a IH]; intros [|y b]; cbn; try easy. rewrite (N.compare_antisym x y). destruct (N.compare x y); cbn; auto. Qed.
Lemma cmp_trans a b c : text_cmp a b = Lt -> text_cmp b c = Lt -> text_cmp a c = Lt.
Proof.
  revert b c. induction a as [|x a IH]; intros [|y b] [|z c]; cbn; try easy.
  destruct (N.compare_spec x y) as [->|L|L]; try easy; destruct (N.compare_spec y z) as [->|L'|L']; try easy; intros A B.
  - now apply (IH b).
  - destruct (N.compare_spec x z); try lia; auto.
  - destruct (N.compare_spec x z); try lia; auto.
Qed.

(* ---- numbers ---- *)
Lemma digits_digit u : Forall (fun c => is_digit c = true) (digits u).
Proof. induction u; cbn [digits]; constructor; auto. Qed.
Fixpoint horner (x : text) (a : N) : N := match x with [] => a | c :: x' => horner x' (10 * a + (c - 48)) end.
Lemma number_acc_app x y a k : Forall (fun c => is_digit c = true) x -> (forall c y', y = c :: y' -> is_digit c = false) ->
  number_acc (x ++ y) a k = (horner x a, (List.length x + k)%nat, y).
Proof.
  intros D Y. revert a k. induction D as [|c x C D IH]; intros a k; cbn.
  - destruct y as [|c y]; cbn; auto. now rewrite (Y c y eq_refl).
  - rewrite C, IH. repeat f_equal. lia.
Qed.
Lemma horner_pos u p : horner (digits u) (N.pos p) = N.pos (Pos.of_uint_acc u p).
Proof. revert p. induction u; intros p; cbn [digits horner Pos.of_uint_acc]; auto; rewrite <- IHu; f_equal; lia. Qed.
Lemma horner_of u : horner (digits u) 0 = N.of_uint u.
Proof.
  unfold N.of_uint. induction u; cbn [digits horner Pos.of_uint]; auto; try (rewrite <- horner_pos; f_equal; lia).
  all: try (change (10 * 0 + (48 - 48)) with 0; exact IHu).
Qed.
Lemma horner_dec n : horner (dec n) 0 = n.
Proof. unfold dec. rewrite horner_of. apply Unsigned.of_to. Qed.
Lemma dec_digit n : Forall (fun c => is_digit c = true) (dec n). Proof. apply digits_digit. Qed.
Lemma dec_nonempty n : dec n <> [].
Proof. unfold dec. destruct n as [|p]; [discriminate|]. intros E. pose proof (horner_dec (N.pos p)) as H. unfold dec in H. rewrite E in H. discriminate. Qed.
Lemma number_dec n y : (forall c y', y = c :: y' -> is_digit c = false) -> number (dec n ++ y) = Some (n, y).
Proof.
  intros Y. unfold number. rewrite number_acc_app; [|apply dec_digit|auto]. rewrite horner_dec, Nat.add_0_r.
  pose proof (dec_nonempty n). destruct (dec n); [easy|reflexivity].
Qed.
Lemma after_app w x : after w (w ++ x) = Some x.
Proof. induction w as [|a w IH]; cbn; auto. now rewrite N.eqb_refl. Qed.
Lemma after_both w v x : after (w ++ v) (w ++ x) = after v x.
Proof. induction w as [|a w IH]; cbn [app after]; auto. now rewrite N.eqb_refl. Qed.
Lemma after_nil w : after w w = Some [].
Proof. rewrite <- (app_nil_r w) at 2. apply after_app. Qed.
Lemma digit_range c : is_digit c = true -> 48 <= c <= 57.
Proof. unfold is_digit. rewrite andb_true_iff, !N.leb_le. auto. Qed.
Lemma two_read n y : n < 100 -> (forall c y', y = c :: y' -> is_digit c = false) -> number_acc (two_digits n ++ y) 0 0%nat = (n, 2%nat, y).
Proof.
  intros L Y. rewrite number_acc_app; auto.
  - cbn [two_digits horner List.length]. f_equal. f_equal. pose proof (N.div_mod n 10 ltac:(lia)). assert (n / 10 < 10) by (apply N.div_lt_upper_bound; lia).
    rewrite (N.mod_small (n / 10) 10) by auto. pose proof (N.mod_lt n 10 ltac:(lia)). set (q := n / 10) in *. set (r := n mod 10) in *. clearbody q r. lia.
  - unfold two_digits. pose proof (N.mod_lt (n / 10) 10 ltac:(lia)). pose proof (N.mod_lt n 10 ltac:(lia)). set (q := (n / 10) mod 10) in *. set (r := n mod 10) in *. clearbody q r. repeat apply Forall_cons; try apply Forall_nil; unfold is_digit; apply andb_true_intro; rewrite !N.leb_le; lia.
Qed.
Definition secs (h : N) : text := dec (h / 100) ++ t "." ++ two_digits (h mod 100).
Lemma secs_read h y : (forall c y', y = c :: y' -> is_digit c = false) -> hundredths_read (secs h ++ y) = Some (h, y).
Proof.
  intros Y. unfold hundredths_read, secs. rewrite <- !app_assoc. rewrite number_dec by (intros c y' E; injection E as <- _; reflexivity). cbn [bind].
  rewrite after_app. cbn [bind]. rewrite two_read; auto.
  - do 2 f_equal. pose proof (N.div_mod h 100 ltac:(lia)). lia.
  - apply N.mod_lt. lia.
Qed.

(* ---- lines ---- *)
Definition unlines (ls : list text) : text := flat_map (fun l => l ++ [10]) ls.
Lemma lines_acc_app l cur x : ~ In 10 l -> lines_acc cur (l ++ 10 :: x) = (rev cur ++ l) :: lines_acc [] x.
Proof.
  revert cur. induction l as [|c l IH]; intros cur N0; cbn.
  - now rewrite app_nil_r.
  - destruct (N.eqb_spec c 10) as [->|_]; [destruct N0; now left|]. rewrite IH by (intros I; apply N0; now right). cbn. now rewrite <- app_assoc.
Qed.
Lemma lines_unlines ls : Forall (fun l => ~ In 10 l) ls -> lines (unlines ls) = ls.
Proof.
  unfold lines. induction 1 as [|l ls N0 F IH]; cbn; auto. rewrite <- app_assoc. cbn [app]. rewrite lines_acc_app by auto. cbn [rev app]. f_equal. exact IH.
Qed.
Lemma unlines_app a b : unlines (a ++ b) = unlines a ++ unlines b. Proof. apply flat_map_app. Qed.
Lemma seen_app a b : seen (a ++ b) = seen a ++ seen b. Proof. apply flat_map_app. Qed.
Lemma seen_line x : seen (line x) = unlines [x]. Proof. cbn. now rewrite !app_nil_r. Qed.
Lemma digit_no_lf x : Forall (fun c => is_digit c = true) x -> ~ In 10 x.
Proof. intros F I. rewrite Forall_forall in F. apply F in I. discriminate. Qed.

(* ---- the printed lines ---- *)
Definition row_line (e : text * N) : text := t "    " ++ dec5 (snd e) ++ t "   " ++ fst e.
Definition who_line (g : grouping) (k : N) : text := t "    " ++ match g with Worker => t "worker " | Runner => t "runner " end ++ dec k ++ t ":".
Definition block_lines (g : grouping) (sel : runner_summary -> counts) (u : runner_summary) : list text :=
  who_line g (grouping_key g (runner u)) :: map row_line (ordered_files (sel u)).
Definition blocks_lines g sel (us : list runner_summary) : list text :=
  match us with [] => [] | u :: us' => block_lines g sel u ++ flat_map (fun u => [] :: block_lines g sel u) us' end.
Definition part_lines (title : text) g sel (us : list runner_summary) : list text :=
  match us with [] => [] | _ => [] :: title :: [] :: blocks_lines g sel us end.
Lemma seen_row e : seen (file_line e) = unlines [row_line e].
Proof. unfold file_line, row_line. cbn [seen unlines flat_map app line]. now rewrite <- ?app_assoc, ?app_nil_r. Qed.
Lemma seen_block g sel u : seen (block g sel u) = unlines (block_lines g sel u).
Proof.
  unfold block, block_lines. rewrite seen_app, seen_line. unfold unlines at 1. cbn [flat_map app]. rewrite app_nil_r. change (who_line g _ :: _) with ([who_line g (grouping_key g (runner u))] ++ map row_line (ordered_files (sel u))).
  rewrite unlines_app. f_equal.
  - unfold unlines, who_line, grouping_label, grouping_key. cbn [flat_map]. rewrite app_nil_r. destruct g; now rewrite <- !app_assoc.
  - induction (ordered_files (sel u)) as [|e l IH]; auto. cbn [flat_map map]. rewrite seen_app, seen_row, IH. now rewrite <- unlines_app.
Qed.
Lemma seen_part title g sel us : seen (part title g sel us) = unlines (part_lines title g sel us).
Proof.
  unfold part, part_lines. destruct us as [|u us]; auto. unfold newline. rewrite !seen_app, !seen_line.
  change ([] :: title :: [] :: blocks_lines g sel (u :: us)) with ([[]] ++ [title] ++ [[]] ++ blocks_lines g sel (u :: us)). rewrite !unlines_app. do 3 f_equal.
  unfold blocks, blocks_lines. rewrite seen_app, unlines_app, seen_block. f_equal. induction us as [|v us IH]; auto. cbn [flat_map]. rewrite !seen_app, seen_block, IH. unfold newline. rewrite seen_line.
  change ([] :: block_lines g sel v) with ([[]] ++ block_lines g sel v). now rewrite !unlines_app.
Qed.

(* ---- reading the lines ---- *)
Lemma skip_repeat n x : skip_spaces (repeat 32 n ++ x) = skip_spaces x.
Proof. induction n; cbn; auto. Qed.
Lemma skip_dec n x : skip_spaces (dec n ++ x) = dec n ++ x.
Proof. pose proof (dec_nonempty n). pose proof (dec_digit n) as D. destruct (dec n) as [|c d]; [easy|]. cbn. inversion D as [|? ? C]. destruct (N.eqb_spec c 32) as [->|]; auto. discriminate. Qed.
Lemma read_row_line e : read_line (row_line e) = Some (Row (snd e) (fst e)).
Proof.
  destruct e as [f n]. unfold row_line. cbn [fst snd].
  assert (R : read_row (t "    " ++ dec5 n ++ t "   " ++ f) = Some (Row n f)).
  { unfold read_row. rewrite after_app. cbn [bind]. unfold dec5. rewrite <- app_assoc, skip_repeat, skip_dec. rewrite number_dec by (intros c y' E; injection E as <- _; reflexivity). cbn [bind]. rewrite after_app. reflexivity. }
  assert (W : read_who (t "    " ++ dec5 n ++ t "   " ++ f) = None).
  { unfold read_who. assert (C : exists c z, dec5 n ++ t "   " ++ f = c :: z /\ (c = 32 \/ is_digit c = true)).
    { unfold dec5. destruct (5 - List.length (dec n))%nat; cbn [repeat app].
      - pose proof (dec_nonempty n). pose proof (dec_digit n) as D. destruct (dec n) as [|c d]; [easy|]. inversion D; subst. cbn. eauto.
      - eauto. }
    destruct C as (c & z & -> & C). assert (119 =? c = false /\ 114 =? c = false) as [A B].
    { destruct C as [->|C]; auto. apply digit_range in C. rewrite !N.eqb_neq. lia. }
    change (t "    worker ") with (t "    " ++ 119 :: t "orker "). change (t "    runner ") with (t "    " ++ 114 :: t "unner "). rewrite !after_both. cbn [after]. now rewrite A, B. }
  unfold read_line. rewrite W, R. reflexivity.
Qed.
Lemma read_who_line g k : read_line (who_line g k) = Some (Who g k).
Proof.
  unfold read_line. assert (R : read_who (who_line g k) = Some (Who g k)).
  { unfold read_who, who_line. destruct g.
    - change (t "    " ++ t "worker " ++ dec k ++ t ":") with (t "    worker " ++ dec k ++ t ":"). rewrite after_app, number_dec by (intros c y' E; injection E as <- _; reflexivity). cbn [bind]. now rewrite eqb_refl.
    - change (t "    " ++ t "runner " ++ dec k ++ t ":") with (t "    runner " ++ dec k ++ t ":"). rewrite after_app.
      replace (after (t "    worker ") (t "    runner " ++ dec k ++ t ":")) with (@None text) by reflexivity.
      rewrite number_dec by (intros c y' E; injection E as <- _; reflexivity). cbn [bind]. now rewrite eqb_refl. }
  rewrite R. destruct g; reflexivity.
Qed.
Definition tab (g : grouping) (sel : runner_summary -> counts) (us : list runner_summary) : table :=
  map (fun u => ((g, grouping_key g (runner u)), ordered_files (sel u))) us.
Lemma add_row_last r b w rows : add_row r (b ++ [(w, rows)]) = Some (b ++ [(w, rows ++ [r])]).
Proof. unfold add_row. rewrite rev_app_distr. cbn. now rewrite rev_involutive. Qed.
Lemma read_rows mode es rs fs w rows xs :
  (mode = false -> read_items (Some mode) (rs ++ [(w, rows)]) fs (map row_line es ++ xs) = read_items (Some mode) (rs ++ [(w, rows ++ es)]) fs xs) /\
  (mode = true -> read_items (Some mode) rs (fs ++ [(w, rows)]) (map row_line es ++ xs) = read_items (Some mode) rs (fs ++ [(w, rows ++ es)]) xs).
Proof.
  revert rows. induction es as [|[f n] es IH]; intros rows; [now rewrite app_nil_r|]. split; intros ->; cbn [map app read_items]; rewrite read_row_line; cbn [bind fst snd]; rewrite add_row_last; cbn [bind].
  - destruct (IH (rows ++ [(f, n)])) as [A _]. rewrite A by auto. now rewrite <- app_assoc.
  - destruct (IH (rows ++ [(f, n)])) as [_ A]. rewrite A by auto. now rewrite <- app_assoc.
Qed.
Lemma read_block mode g sel u rs fs xs :
  read_items (Some mode) rs fs (block_lines g sel u ++ xs) =
  read_items (Some mode) (rs ++ if mode then [] else tab g sel [u]) (fs ++ if mode then tab g sel [u] else []) xs.
Proof.
  unfold block_lines. cbn [app read_items]. rewrite read_who_line. cbn [bind]. destruct mode; cbn [tab map]; rewrite app_nil_r.
  - destruct (read_rows true (ordered_files (sel u)) rs fs (g, grouping_key g (runner u)) [] xs) as [_ A]. now rewrite A.
  - destruct (read_rows false (ordered_files (sel u)) rs fs (g, grouping_key g (runner u)) [] xs) as [A _]. now rewrite A.
Qed.
Lemma tab_cons g sel u us : tab g sel (u :: us) = tab g sel [u] ++ tab g sel us. Proof. reflexivity. Qed.
Lemma read_blocks mode g sel us rs fs xs :
  read_items (Some mode) rs fs (flat_map (fun u => [] :: block_lines g sel u) us ++ xs) =
  read_items (Some mode) (rs ++ if mode then [] else tab g sel us) (fs ++ if mode then tab g sel us else []) xs.
Proof.
  revert rs fs. induction us as [|u us IH]; intros rs fs; cbn [flat_map app].
  - destruct mode; cbn; now rewrite !app_nil_r.
  - rewrite <- app_assoc. cbn [read_items]. change (read_line []) with (Some Blank). cbn [bind]. rewrite read_block, IH. rewrite (tab_cons g sel u us). destruct mode; now rewrite ?app_nil_r, <- ?app_assoc.
Qed.
Lemma read_part mode0 (mode : bool) title g sel us rs fs xs : read_line title = Some (if mode then Failures else Retries) -> (mode = false -> mode0 = None) -> mode0 <> Some true ->
  read_items mode0 rs fs (part_lines title g sel us ++ xs) =
  read_items (match us with [] => mode0 | _ => Some mode end) (rs ++ if mode then [] else tab g sel us) (fs ++ if mode then tab g sel us else []) xs.
Proof.
  intros T M M'. unfold part_lines. destruct us as [|u us].
  - destruct mode; cbn; now rewrite !app_nil_r.
  - cbn [app read_items]. change (read_line []) with (Some Blank). cbn [bind]. rewrite T. cbn [bind].
    transitivity (read_items (Some mode) rs fs (blocks_lines g sel (u :: us) ++ xs)).
    { destruct mode; [destruct mode0 as [[|]|]; try reflexivity; destruct (M' eq_refl)|]. rewrite (M eq_refl). reflexivity. }
    unfold blocks_lines. rewrite <- app_assoc, read_block, read_blocks. rewrite (tab_cons g sel u us). destruct mode; now rewrite ?app_nil_r, <- ?app_assoc.
Qed.

(* ---- line feeds ---- *)
Definition row_ok (e : text * N) : Prop := ~ In 10 (fst e).
Lemma not_in_app (c : N) (a b : text) : ~ In c a -> ~ In c b -> ~ In c (a ++ b).
Proof. rewrite in_app_iff. tauto. Qed.
Ltac nolf := repeat apply not_in_app; try (apply digit_no_lf, dec_digit); try (cbn; intuition discriminate).
Lemma row_no_lf e : row_ok e -> ~ In 10 (row_line e).
Proof. intros R. unfold row_line, dec5. nolf; auto. intros I. apply repeat_spec in I. discriminate. Qed.
Lemma who_no_lf g k : ~ In 10 (who_line g k).
Proof. unfold who_line. nolf. destruct g; cbn; intuition discriminate. Qed.
Lemma part_no_lf title g sel us : ~ In 10 title -> Forall (fun u => Forall row_ok (ordered_files (sel u))) us -> Forall (fun l => ~ In 10 l) (part_lines title g sel us).
Proof.
  intros T F. unfold part_lines. destruct us as [|u us]; constructor; auto. constructor; auto. constructor; auto. inversion F as [|? ? A B]; subst.
  assert (BL : forall u, Forall row_ok (ordered_files (sel u)) -> Forall (fun l => ~ In 10 l) (block_lines g sel u)).
  { intros v V. constructor; [apply who_no_lf|]. rewrite Forall_forall in V. apply Forall_forall. intros x I. apply in_map_iff in I as (e & <- & I). now apply row_no_lf, V. }
  unfold blocks_lines. apply Forall_app. split; auto. clear F A. induction B as [|v us V B IH]; cbn [flat_map app]; auto. constructor; auto. apply Forall_app. auto.
Qed.

(* ---- the maps ---- *)
Lemma insert_in f n m : StronglySorted (fun a b => text_cmp (fst a) (fst b) = Lt) m -> ~ In f (map fst m) ->
  StronglySorted (fun a b => text_cmp (fst a) (fst b) = Lt) (file_insert f n m) /\ forall e, In e (file_insert f n m) <-> e = (f, n) \/ In e m.
Proof.
  induction m as [|[g k] m IH]; intros S0 N0; cbn.
  - split; [repeat constructor|]. intros e. intuition.
  - inversion S0 as [|? ? S1 F1]; subst. destruct (text_cmp f g) eqn:C.
    + apply cmp_eq in C as ->. destruct N0. now left.
    + split; [|intros e; cbn; intuition]. constructor; auto. constructor; auto. eapply Forall_impl; [|exact F1]. intros e E. cbn in *. eapply cmp_trans; eauto.
    + destruct IH as [A B]; auto. { intros I. apply N0. now right. } split.
      * constructor; auto. apply Forall_forall. intros e I. apply B in I as [->|I]; [|now rewrite Forall_forall in F1; apply F1]. cbn. rewrite cmp_anti, C. reflexivity.
      * intros e. cbn. rewrite B. intuition.
Qed.
Lemma ordered_spec c : NoDup (map fst c) ->
  StronglySorted (fun a b => text_cmp (fst a) (fst b) = Lt) (ordered_files c) /\ forall e, In e (ordered_files c) <-> In e c.
Proof.
  intros D. unfold ordered_files.
  enough (H : forall m, StronglySorted (fun a b => text_cmp (fst a) (fst b) = Lt) m -> (forall f, In f (map fst m) -> ~ In f (map fst c)) ->
     StronglySorted (fun a b => text_cmp (fst a) (fst b) = Lt) (fold_left (fun m e => file_insert (fst e) (snd e) m) c m) /\
     forall e, In e (fold_left (fun m e => file_insert (fst e) (snd e) m) c m) <-> In e m \/ In e c).
  { destruct (H []) as [A B]; [constructor|easy|]. split; auto. intros e. rewrite B. cbn. tauto. }
  induction c as [|[f n] c IH]; intros m S0 N0; cbn [fold_left]; [split; auto; intros e; cbn; tauto|]. inversion D as [|? ? D1 D2]; subst. cbn [fst snd] in *.
  destruct (insert_in f n m) as [A B]; auto. { intros I. apply N0 in I. apply I. now left. }
  destruct (IH D2 (file_insert f n m)) as [C E]; auto.
  { intros g I. apply in_map_iff in I as (e & <- & I). apply B in I as [->|I]; auto. intros J. apply (N0 (fst e)); [now apply in_map|now right]. }
  split; auto. intros e. rewrite E, B. cbn. intuition.
Qed.
Lemma entry_keys f n c g : In g (map fst (entry_add f n c)) <-> g = f \/ In g (map fst c).
Proof. induction c as [|[h m] c IH]; cbn; [intuition|]. destruct (text_eqb f h) eqn:E; cbn; [apply eqb_iff in E as ->; intuition|]. rewrite IH. intuition. Qed.
Lemma entry_nodup f n c : NoDup (map fst c) -> NoDup (map fst (entry_add f n c)).
Proof.
  induction c as [|[h m] c IH]; cbn; intros D; [repeat constructor; auto|]. inversion D; subst. destruct (text_eqb f h) eqn:E; cbn; constructor; auto.
  rewrite entry_keys. intros [->|I]; [now rewrite eqb_refl in E|auto].
Qed.
Lemma entry_count f n c g : count_in g (entry_add f n c) = count_in g c + if text_eqb f g then n else 0.
Proof.
  unfold count_in. induction c as [|[h m] c IH]; cbn [entry_add map fst snd fold_right]; [destruct (text_eqb f g); lia|].
  destruct (text_eqb f h) eqn:E; cbn [map fst snd fold_right]; [apply eqb_iff in E as ->; destruct (text_eqb h g); lia|]. rewrite IH. lia.
Qed.
Definition merge (a b : counts) : counts := fold_left (fun c e => entry_add (fst e) (snd e) c) b a.
Lemma merge_spec a b : (NoDup (map fst a) -> NoDup (map fst (merge a b))) /\ (forall g, In g (map fst (merge a b)) <-> In g (map fst a) \/ In g (map fst b)) /\
  forall g, count_in g (merge a b) = count_in g a + count_in g b.
Proof.
  unfold merge. revert a. induction b as [|[f n] b IH]; intros a; cbn [fold_left map fst snd].
  - split; [auto|]. split; [cbn; tauto|]. unfold count_in at 3. cbn. intros. lia.
  - destruct (IH (entry_add f n a)) as (A & B & C). split; [intros; apply A, entry_nodup; auto|]. split.
    + intros g. rewrite B, entry_keys. cbn. intuition.
    + intros g. rewrite C, entry_count. unfold count_in at 4. cbn. fold (count_in g b). lia.
Qed.
Lemma count_unique f n c : NoDup (map fst c) -> In (f, n) c -> count_in f c = n.
Proof.
  unfold count_in. induction c as [|[g m] c IH]; cbn; [easy|]. intros D [E|I]; inversion D; subst.
  - injection E as -> ->. rewrite eqb_refl. replace (fold_right N.add 0 _) with 0; [lia|]. clear - H1. induction c as [|[h k] c IH]; auto. cbn. destruct (text_eqb h f) eqn:E; [apply eqb_iff in E as ->; destruct H1; now left|]. rewrite <- IH; auto. intros I. apply H1. now right.
  - destruct (text_eqb g f) eqn:E; [apply eqb_iff in E as ->; destruct H1; change f with (fst (f, n)); now apply in_map|]. rewrite IH; auto.
Qed.

(* ---- grouping ---- *)
Definition good (sel : runner_summary -> counts) (u : runner_summary) (us : list runner_summary) : Prop :=
  NoDup (map fst (sel u)) /\ (forall f, In f (map fst (sel u)) <-> counted sel f us) /\ forall f, count_in f (sel u) = total sel f us.
Definition of_key (g : grouping) (k : N) (us : list runner_summary) := filter (belongs g k) us.
Definition grouping_inv (g : grouping) (us : list runner_summary) (m : list (N * runner_summary)) : Prop :=
  StronglySorted (fun a b => fst a < fst b) m /\
  (forall k u, In (k, u) m -> grouping_key g (runner u) = k /\ good failures_per_file u (of_key g k us) /\ good retries_per_file u (of_key g k us)) /\
  (forall k, (exists u, In (k, u) m) <-> of_key g k us <> []).
Lemma belongs_iff g k u : belongs g k u = true <-> grouping_key g (runner u) = k.
Proof. unfold belongs, grouping_key. rewrite N.eqb_eq. destruct g; tauto. Qed.
Lemma of_key_snoc g k us u : of_key g k (us ++ [u]) = of_key g k us ++ if belongs g k u then [u] else [].
Proof. unfold of_key. rewrite filter_app. cbn. destruct (belongs g k u); auto. Qed.
Lemma total_app sel f a b : total sel f (a ++ b) = total sel f a + total sel f b.
Proof. unfold total. rewrite map_app. induction a as [|u a IH]; cbn; [lia|]. rewrite IH. lia. Qed.
Lemma counted_app sel f a b : counted sel f (a ++ b) <-> counted sel f a \/ counted sel f b.
Proof. unfold counted. split; [intros (u & n & I & J); rewrite in_app_iff in I; destruct I; eauto|intros [(u & n & I & J)|(u & n & I & J)]; exists u, n; rewrite in_app_iff; auto]. Qed.
Lemma counted_one sel f u : counted sel f [u] <-> In f (map fst (sel u)).
Proof. unfold counted. rewrite in_map_iff. split; [intros (v & n & [<-|[]] & J); exists (f, n); auto|intros ([g n] & <- & J); exists u, n; cbn; auto]. Qed.
Lemma counted_cons sel f u us : counted sel f (u :: us) <-> In f (map fst (sel u)) \/ counted sel f us.
Proof. change (u :: us) with ([u] ++ us). now rewrite counted_app, counted_one. Qed.
Lemma good_one sel u : NoDup (map fst (sel u)) -> good sel u [u].
Proof. intros D. split; auto. split; [intros f; now rewrite counted_one|]. intros f. unfold total. cbn. lia. Qed.
Lemma good_merge (sel : runner_summary -> counts) v u us : good sel v us -> NoDup (map fst (sel u)) -> sel (union v u) = merge (sel v) (sel u) -> good sel (union v u) (us ++ [u]).
Proof.
  intros (A & B & C) D E. destruct (merge_spec (sel v) (sel u)) as (X & Y & Z). unfold good. rewrite E. split; auto. split.
  - intros f. now rewrite Y, B, counted_app, counted_one.
  - intros f. rewrite Z, C, total_app. f_equal. unfold total. cbn. lia.
Qed.
Lemma group_in_in k u m e : StronglySorted (fun a b => fst a < fst b) m ->
  In e (group_in k u m) <-> (fst e = k /\ ((exists v, In (k, v) m /\ snd e = union v u) \/ (~ (exists v, In (k, v) m) /\ snd e = u))) \/ (In e m /\ fst e <> k).
Proof.
  intros S0. induction m as [|[k' v] m IH]; cbn [group_in].
  - cbn. destruct e as [a b]. cbn. split.
    + intros [E|[]]. injection E as <- <-. left. split; auto. right. split; auto. intros (x & []).
    + intros [[-> [(x & [] & _)|[_ ->]]]|[[] _]]. now left.
  - inversion S0 as [|? ? S1 F1]; subst. rewrite Forall_forall in F1. destruct (N.compare_spec k k') as [->|L|L].
    + destruct e as [a b]. cbn. split.
      * intros [E|I]; [injection E as <- <-; left; split; auto; left; exists v; auto|]. right. split; auto. specialize (F1 _ I). cbn in F1. lia.
      * intros [[-> [(x & [E|I] & ->)|[N0 ->]]]|[[E|I] N0]].
        -- injection E as ->. now left.
        -- specialize (F1 _ I). cbn in F1. lia.
        -- destruct N0. exists v. now left.
        -- injection E as -> ->. easy.
        -- now right.
    + destruct e as [a b]. cbn. assert (NI : ~ exists x, (k', v) = (k, x) \/ In (k, x) m).
      { intros (x & [E|I]); [injection E as -> ->; lia|]. specialize (F1 _ I). cbn in F1. lia. }
      split.
      * intros [E|I]; [injection E as <- <-; left; split; auto|]. right. split; auto. intros ->. apply NI. exists b. destruct I as [E|I]; auto.
      * intros [[-> [(x & I & ->)|[N0 ->]]]|[I N0]]; auto. destruct NI. eauto.
    + cbn [In]. rewrite (IH S1). destruct e as [a b]. cbn. split.
      * intros [E|[[-> [(x & I & ->)|[N0 ->]]]|[I N0]]].
        -- injection E as <- <-. right. split; auto. lia.
        -- left. split; auto. left. eauto.
        -- left. split; auto. right. split; auto. intros (x & [E|I]); [injection E as -> ->; lia|]. apply N0. eauto.
        -- right. auto.
      * intros [[-> [(x & [E|I] & ->)|[N0 ->]]]|[[E|I] N0]].
        -- injection E as -> ->. lia.
        -- right. left. split; auto. left. eauto.
        -- right. left. split; auto. right. split; auto. intros (x & I). apply N0. eauto.
        -- now left.
        -- right. right. auto.
Qed.
Lemma group_in_sorted k u m : StronglySorted (fun a b => fst a < fst b) m -> StronglySorted (fun a b => fst a < fst b) (group_in k u m).
Proof.
  induction m as [|[k' v] m IH]; intros S0; cbn [group_in]; [repeat constructor|]. inversion S0 as [|? ? S1 F1]; subst. destruct (N.compare_spec k k') as [->|L|L].
  - constructor; auto.
  - constructor; auto. constructor; auto. eapply Forall_impl; [|exact F1]. cbn. intros. lia.
  - constructor; auto. apply Forall_forall. intros e I. apply group_in_in in I; auto. cbn. rewrite Forall_forall in F1. destruct I as [[-> _]|[I _]]; auto.
Qed.
Lemma group_step g us m u : grouping_inv g us m -> NoDup (map fst (failures_per_file u)) -> NoDup (map fst (retries_per_file u)) ->
  grouping_inv g (us ++ [u]) (group_in (grouping_key g (runner u)) u m).
Proof.
  intros (S0 & A & B) D1 D2. set (k := grouping_key g (runner u)). split; [now apply group_in_sorted|]. split.
  - intros k' v I. apply group_in_in in I; auto. cbn [fst snd] in I. rewrite of_key_snoc. destruct I as [[-> [(x & I & ->)|[N0 ->]]]|[I N0]].
    + replace (belongs g k u) with true by (symmetry; now apply belongs_iff). destruct (A _ _ I) as (P & Q & R). split; [exact P|]. split; apply good_merge; auto.
    + replace (belongs g k u) with true by (symmetry; now apply belongs_iff). assert (of_key g k us = []) as ->.
      { destruct (of_key g k us) eqn:E; auto. destruct N0. apply B. rewrite E. easy. }
      split; auto. split; apply good_one; auto.
    + replace (belongs g k' u) with false; [rewrite app_nil_r; auto|]. symmetry. apply not_true_iff_false. rewrite belongs_iff. intros E. apply N0. now rewrite <- E.
  - intros k'. rewrite of_key_snoc. destruct (N.eq_dec k k') as [<-|N0].
    + replace (belongs g k u) with true by (symmetry; now apply belongs_iff). split; [intros _; now destruct (of_key g k us)|]. intros _.
      destruct (of_key g k us) eqn:E.
      * exists u. apply group_in_in; auto. cbn. left. split; auto. right. split; auto. intros X. apply B in X. now rewrite E in X.
      * assert (X : exists v, In (k, v) m) by (apply B; now rewrite E). destruct X as (v & X). exists (union v u). apply group_in_in; auto. cbn. left. split; auto. left. eauto.
    + replace (belongs g k' u) with false; [rewrite app_nil_r|symmetry; apply not_true_iff_false; now rewrite belongs_iff]. rewrite <- B. split; intros (v & I).
      * apply group_in_in in I; auto. cbn in I. destruct I as [[E _]|[I _]]; [now destruct N0|]. eauto.
      * exists v. apply group_in_in; auto.
Qed.
Lemma grouping_holds s : maps s -> grouping_inv (grouped_by s) (runner_summaries s) (fold_left (fun m u => group_in (grouping_key (grouped_by s) (runner u)) u m) (runner_summaries s) []).
Proof.
  intros M. unfold maps in M. set (g := grouped_by s) in *.
  enough (H : forall us us0 m, grouping_inv g us0 m -> (forall u, In u us -> NoDup (map fst (failures_per_file u)) /\ NoDup (map fst (retries_per_file u))) ->
     grouping_inv g (us0 ++ us) (fold_left (fun m u => group_in (grouping_key g (runner u)) u m) us m)).
  { apply (H _ [] []); auto. split; [constructor|]. split; [easy|]. intros k. split; [intros (u & [])|easy]. }
  induction us as [|u us IH]; intros us0 m I W; cbn [fold_left]; [now rewrite app_nil_r|]. change (u :: us) with ([u] ++ us). rewrite app_assoc. apply IH.
  - destruct (W u) as [D1 D2]; [now left|]. now apply group_step.
  - intros v J. apply W. now right.
Qed.
Lemma sorted_map_filter {A} (R : A -> A -> Prop) (p : A -> bool) l : StronglySorted R l -> StronglySorted R (filter p l).
Proof. induction 1 as [|a l S0 IH F]; cbn; [constructor|]. destruct (p a); auto. constructor; auto. rewrite Forall_forall in *. intros x I. apply filter_In in I as [I _]. auto. Qed.
Lemma filter_map_snd {K A} (p : A -> bool) (l : list (K * A)) : filter p (map snd l) = map snd (filter (fun e => p (snd e)) l).
Proof. induction l as [|[k a] l IH]; cbn; auto. destruct (p a); cbn; now rewrite IH. Qed.

Lemma tells_tab s (sel : runner_summary -> counts) (has : runner_summary -> bool) : maps s -> (sel = failures_per_file /\ has = has_failures \/ sel = retries_per_file /\ has = has_retries) ->
  tells s sel (tab (grouped_by s) sel (filter has (grouped_runner_summaries s))).
Proof.
  intros M W. destruct (grouping_holds s M) as (S0 & A & B). unfold grouped_runner_summaries. set (m := fold_left _ _ _) in *. set (g := grouped_by s) in *.
  rewrite filter_map_snd. unfold tab. rewrite map_map.
  assert (H : forall u, has u = true <-> sel u <> []).
  { intros u. destruct W as [[-> ->]|[-> ->]]; unfold has_failures, has_retries; [destruct (failures_per_file u)|destruct (retries_per_file u)]; split; congruence. }
  assert (G : forall k u, In (k, u) m -> grouping_key g (runner u) = k /\ good sel u (of_key g k (runner_summaries s))).
  { intros k u I. destruct (A k u I) as (P & Q & R). destruct W as [[-> _]|[-> _]]; auto. }
  split; [|split].
  - assert (S1 : StronglySorted (fun a b => fst a < fst b) (filter (fun e => has (snd e)) m)) by now apply sorted_map_filter.
    assert (G1 : forall e, In e (filter (fun e => has (snd e)) m) -> grouping_key g (runner (snd e)) = fst e) by (intros [k u] I; apply filter_In in I as [I _]; now apply G).
    induction S1 as [|e l S1 IH F]; cbn [map]; constructor.
    + apply IH. intros x I. apply G1. now right.
    + apply Forall_forall. intros x I. apply in_map_iff in I as (e' & <- & I). cbn. rewrite (G1 e), (G1 e'); [|now right|now left]. rewrite Forall_forall in F. now apply F.
  - apply Forall_forall. intros x I. apply in_map_iff in I as ([k u] & <- & I). apply filter_In in I as [I HU]. cbn [fst snd] in *. apply G in I as (_ & D & _). apply ordered_spec in D as [D1 D2]. split; auto. split; auto.
    apply H in HU. destruct (sel u) as [|e l]; [easy|]. intros E. specialize (D2 e). rewrite E in D2. destruct D2 as [_ D2]. apply D2. now left.
  - intros k f n. change (grouped_by s) with g. change (filter (belongs g k) (runner_summaries s)) with (of_key g k (runner_summaries s)). split.
    + intros (rows & I & J). apply in_map_iff in I as ([k' u] & E & I). apply filter_In in I as [I HU]. cbn [fst snd] in *. destruct (G _ _ I) as (P & D & Q & R). injection E as E1 <-. rewrite P in E1. subst k'.
      apply ordered_spec in D as D'. destruct D' as [_ D2]. apply D2 in J. split; [apply Q; change f with (fst (f, n)); now apply in_map|]. rewrite <- R. symmetry. now apply count_unique.
    + intros [C ->]. assert (NE : of_key g k (runner_summaries s) <> []). { intros E. rewrite E in C. destruct C as (u & n & [] & _). }
      apply B in NE as (u & I). destruct (G _ _ I) as (P & D & Q & R). apply Q in C. apply in_map_iff in C as ([f' n] & E & J). cbn in E. subst f'. exists (ordered_files (sel u)). split.
      * apply in_map_iff. exists (k, u). cbn. split; [now rewrite P|]. apply filter_In. split; auto. cbn. apply H. intros E. rewrite E in J. easy.
      * apply ordered_spec; auto. rewrite <- R. rewrite (count_unique f n); auto.
Qed.

(* ---- all of it ---- *)
Definition times_line (w s : N) : text := t "Finished in " ++ secs w ++ t " seconds (" ++ secs s ++ t " seconds spent in test code)".
Definition numbers_line (a b c : N) : text := dec a ++ t " tests, " ++ dec b ++ t " failures" ++ if 0 <? c then t ", " ++ dec c ++ t " retried" else [].
Lemma times_read w s : read_times (times_line w s) = Some (w, s).
Proof.
  unfold read_times, times_line. rewrite after_app. cbn [bind]. rewrite secs_read by (intros c y' E; injection E as <- _; reflexivity). cbn [bind]. rewrite after_app. cbn [bind].
  rewrite secs_read by (intros c y' E; injection E as <- _; reflexivity). cbn [bind]. now rewrite after_nil.
Qed.
Lemma numbers_read a b c : read_numbers (numbers_line a b c) = Some (a, b, c).
Proof.
  unfold read_numbers, numbers_line. rewrite number_dec by (intros d y' E; injection E as <- _; reflexivity). cbn [bind]. rewrite after_app. cbn [bind].
  rewrite number_dec by (intros d y' E; injection E as <- _; reflexivity). cbn [bind]. destruct (0 <? c) eqn:Z.
  - rewrite after_app. cbn [bind]. change (t ", " ++ dec c ++ t " retried") with (44 :: (t " " ++ dec c ++ t " retried")). cbv iota beta.
    change (44 :: t " " ++ dec c ++ t " retried") with (t ", " ++ dec c ++ t " retried"). rewrite after_app. cbn [bind]. rewrite number_dec by (intros d y' E; injection E as <- _; reflexivity). cbn [bind]. now rewrite after_nil.
  - rewrite app_nil_r, after_nil. cbn [bind]. assert (c = 0) as ->; auto. apply N.ltb_ge in Z. lia.
Qed.
Lemma two_no_lf n : ~ In 10 (two_digits n).
Proof. unfold two_digits. set (q := (n / 10) mod 10). set (r := n mod 10). clearbody q r. intros [E|[E|[]]]; lia. Qed.
Lemma times_no_lf w s : ~ In 10 (times_line w s).
Proof. unfold times_line, secs. nolf; apply two_no_lf. Qed.
Lemma numbers_no_lf a b c : ~ In 10 (numbers_line a b c).
Proof. unfold numbers_line. nolf. destruct (0 <? c); nolf. Qed.
Definition h1 : text := repeat 45 80.
Definition h2 : text := repeat 45 37 ++ t " ABQ " ++ repeat 45 38.
Definition all_lines (hundredths : N -> N) (s : short_summary) : list text :=
  [h1; h2; h1; []; times_line (hundredths (wall_time s / 1000000)) (hundredths (test_time s / 1000000)); numbers_line (num_tests s) (num_failing s) (num_retried s)] ++
  part_lines (t "Retries:") (grouped_by s) retries_per_file (filter has_retries (grouped_runner_summaries s)) ++
  part_lines (t "Failures:") (grouped_by s) failures_per_file (filter has_failures (grouped_runner_summaries s)).
Lemma unlines_cons l ls : unlines (l :: ls) = l ++ 10 :: unlines ls.
Proof. unfold unlines. cbn [flat_map]. now rewrite <- app_assoc. Qed.
Lemma seen_colour c f : seen (with_color_spec c f) = seen f.
Proof. unfold with_color_spec. change (SetColour c :: f ++ [ResetColour]) with ([SetColour c] ++ f ++ [ResetColour]). rewrite !seen_app. cbn [seen flat_map app]. now rewrite app_nil_r. Qed.
Lemma seen_put x : seen [Put x] = x. Proof. cbn. now rewrite app_nil_r. Qed.
Lemma seen_secs hundredths ns : seen (partial_seconds hundredths ns) = secs (hundredths (ns / 1000000)) ++ t " seconds".
Proof. unfold partial_seconds. cbv zeta. rewrite seen_put. unfold secs. now rewrite <- !app_assoc. Qed.
Lemma seen_ln x : seen (line x) = x ++ [10]. Proof. unfold line. apply seen_put. Qed.
Lemma header_lines : header = h1 ++ 10 :: h2 ++ 10 :: h1 ++ [10]. Proof. reflexivity. Qed.
Lemma seen_all hundredths s : seen (format_short_suite_summary hundredths s) = unlines (all_lines hundredths s).
Proof.
  unfold format_short_suite_summary, all_lines. cbv zeta. rewrite !seen_app, !seen_part, !seen_colour.
  change (Put (t "Finished in ") :: partial_seconds hundredths (wall_time s)) with ([Put (t "Finished in ")] ++ partial_seconds hundredths (wall_time s)).
  rewrite seen_app, !seen_secs. unfold newline. rewrite !seen_ln, !seen_put. cbn [app]. rewrite !unlines_cons, unlines_app. rewrite header_lines.
  set (P1 := unlines (part_lines (t "Retries:") _ _ _)). set (P2 := unlines (part_lines (t "Failures:") _ _ _)).
  unfold times_line, numbers_line. set (H1 := h1). set (H2 := h2). set (S1 := secs _). set (S2 := secs _). set (N1 := dec _). set (N2 := dec _).
  assert (C : seen (if 0 <? num_retried s then Put (t ", ") :: with_color_spec yellow_bold_spec [Put (dec (num_retried s) ++ t " retried")] else []) = if 0 <? num_retried s then t ", " ++ dec (num_retried s) ++ t " retried" else []).
  { destruct (0 <? num_retried s); auto. transitivity (t ", " ++ seen (with_color_spec yellow_bold_spec [Put (dec (num_retried s) ++ t " retried")])); [reflexivity|]. now rewrite seen_colour, seen_put. }
  rewrite C. set (C' := if 0 <? num_retried s then _ else _). clearbody P1 P2 H1 H2 S1 S2 N1 N2 C'. clear.
  repeat (rewrite <- app_assoc; cbn [app]). reflexivity.
Qed.

Lemma merged_no_lf s sel has : maps s -> one_line s -> (sel = failures_per_file /\ has = has_failures \/ sel = retries_per_file /\ has = has_retries) ->
  Forall (fun u => Forall row_ok (ordered_files (sel u))) (filter has (grouped_runner_summaries s)).
Proof.
  intros M O W. destruct (tells_tab s sel has M W) as (_ & _ & T). apply Forall_forall. intros u I. apply Forall_forall. intros [f n] J. unfold row_ok. cbn.
  destruct (T (grouping_key (grouped_by s) (runner u)) f n) as [T1 _]. destruct T1 as [(v & m & V & F) _].
  { exists (ordered_files (sel u)). split; auto. unfold tab. apply in_map_iff. exists u. auto. }
  apply filter_In in V as [V _]. apply (O v f m V). apply in_app_iff. destruct W as [[-> _]|[-> _]]; auto.
Qed.
Lemma read_all hundredths s : maps s -> one_line s ->
  read_summary (seen (format_short_suite_summary hundredths s)) =
  Some {| in_all := (hundredths (wall_time s / 1000000), hundredths (test_time s / 1000000)); tests := num_tests s; failing := num_failing s; retried := num_retried s;
          retries := tab (grouped_by s) retries_per_file (filter has_retries (grouped_runner_summaries s));
          failures := tab (grouped_by s) failures_per_file (filter has_failures (grouped_runner_summaries s)) |}.
Proof.
  intros M O. rewrite seen_all. unfold read_summary. rewrite lines_unlines.
  - unfold all_lines. cbn [app]. rewrite times_read. cbn [bind]. rewrite numbers_read. cbn [bind].
    rewrite (read_part None false); [|reflexivity|auto|discriminate]. rewrite <- (app_nil_r (part_lines (t "Failures:") _ _ _)).
    rewrite (read_part _ true); [|reflexivity|discriminate|destruct (filter has_retries _); discriminate]. cbn [read_items bind]. now rewrite !app_nil_r.
  - unfold all_lines. apply Forall_app. split; [|apply Forall_app; split; apply part_no_lf; try (eapply merged_no_lf; eauto; tauto); cbn; intuition discriminate].
    repeat apply Forall_cons; try apply Forall_nil; try apply times_no_lf; try apply numbers_no_lf; cbn; intuition discriminate.
Qed.
Lemma about_times hundredths ns : nearest hundredths -> ns < 2 ^ 50 * 1000000 -> about (hundredths (ns / 1000000)) ns.
Proof.
  intros H L. assert (D : ns / 1000000 < 2 ^ 50) by (apply N.div_lt_upper_bound; lia). apply H in D. unfold about. pose proof (N.div_mod ns 1000000 ltac:(lia)). pose proof (N.mod_lt ns 1000000 ltac:(lia)).
  set (q := ns / 1000000) in *. set (r := ns mod 1000000) in *. set (h := hundredths q) in *. clearbody q r h. clear L. lia.
Qed.

(* ---- colours ---- *)
Lemma painted_app a b c : painted c (a ++ b) = (fst (painted c a) ++ fst (painted (snd (painted c a)) b), snd (painted (snd (painted c a)) b)).
Proof.
  revert c. induction a as [|o a IH]; intros c; cbn [app]; [cbn [painted fst snd app]; destruct (painted c b); reflexivity|].
  destruct o as [x|d|]; cbn [painted]; rewrite ?IH; auto. destruct (painted c a) as [l c'] eqn:E. cbn [fst snd]. now rewrite app_assoc.
Qed.
Lemma painted_seen c ops : map fst (fst (painted c ops)) = seen ops.
Proof.
  revert c. induction ops as [|o ops IH]; intros c; auto. destruct o as [x|d|]; cbn [painted]; [|apply IH|apply IH].
  specialize (IH c). destruct (painted c ops) as [l c']. cbn [fst] in *. rewrite map_app, map_map, IH. cbn. now rewrite map_id.
Qed.
Definition is_put (o : wop) : Prop := match o with Put _ => True | _ => False end.
Lemma painted_puts ops c : Forall is_put ops -> painted c ops = (map (fun a => (a, c)) (seen ops), c).
Proof. induction 1 as [|o ops P F IH]; auto. destruct o as [x| |]; try easy. cbn [painted]. rewrite IH. cbn [seen flat_map]. now rewrite map_app. Qed.
Lemma part_puts title g sel us : Forall is_put (part title g sel us).
Proof.
  assert (B : forall u, Forall is_put (block g sel u)).
  { intros u. unfold block. apply Forall_app. split; [repeat constructor|]. induction (ordered_files (sel u)) as [|e l IH]; cbn [flat_map]; auto. apply Forall_app. split; auto. repeat constructor. }
  unfold part. destruct us as [|u us]; auto. unfold newline, line. do 3 (apply Forall_app; split; [repeat constructor|]). unfold blocks. apply Forall_app. split; auto.
  induction us as [|v us IH]; cbn [flat_map]; auto. apply Forall_app. split; auto. apply Forall_app. split; auto. repeat constructor.
Qed.
Lemma painted_colour c0 c ops : Forall is_put ops -> painted c0 (with_color_spec c ops) = (map (fun a => (a, Some c)) (seen ops), None).
Proof. intros F. unfold with_color_spec. cbn [painted]. rewrite painted_app, painted_puts by auto. cbn [fst snd painted]. now rewrite app_nil_r. Qed.
Definition in_colour (c : option colour) (l : list (N * option colour)) : Prop := Forall (fun a => snd a = c) l.
Lemma in_colour_map c (x : text) : in_colour c (map (fun a => (a, c)) x).
Proof. apply Forall_forall. intros a I. apply in_map_iff in I as (b & <- & _). reflexivity. Qed.
(* the runs of one colour *)
Lemma painted_all hundredths s : exists A B C D E F G H, painted None (format_short_suite_summary hundredths s) =
  (map (fun a => (a, None)) A ++ map (fun a => (a, Some bold_spec)) B ++ map (fun a => (a, None)) C ++ map (fun a => (a, Some green_bold_spec)) D ++ map (fun a => (a, None)) E ++
   map (fun a => (a, Some (failing_spec (num_failing s)))) (dec (num_failing s) ++ t " failures") ++
   (if 0 <? num_retried s then map (fun a => (a, None)) F ++ map (fun a => (a, Some yellow_bold_spec)) (dec (num_retried s) ++ t " retried") ++ G else []) ++ map (fun a => (a, None)) H, None) /\ G = [] /\
  ~ In 10 B /\ ~ In 10 D /\ D = dec (num_tests s) ++ t " tests".
Proof.
  unfold format_short_suite_summary. cbv zeta.
  set (ps := partial_seconds hundredths). assert (PS : forall n, Forall is_put (ps n)) by (intros; repeat constructor).
  set (P1 := part (t "Retries:") _ _ _). assert (F1 : Forall is_put P1) by apply part_puts. set (P2 := part (t "Failures:") _ _ _). assert (F2 : Forall is_put P2) by apply part_puts.
  exists (header ++ [10]), (t "Finished in " ++ seen (ps (wall_time s))), (t " (" ++ seen (ps (test_time s)) ++ t " spent in test code)" ++ [10]), (dec (num_tests s) ++ t " tests"), (t ", "), (t ", "), [], ([10] ++ seen (P1 ++ P2)).
  split; [|split; [reflexivity|]].
  2: { split; [|split; [|reflexivity]]; unfold ps; rewrite ?seen_secs; unfold secs; nolf; apply two_no_lf. }
  set (HD := header). set (R := if 0 <? num_retried s then _ else _).
  assert (ER : painted None R = (if 0 <? num_retried s then map (fun a => (a, None)) (t ", ") ++ map (fun a => (a, Some yellow_bold_spec)) (dec (num_retried s) ++ t " retried") ++ [] else [], None)).
  { unfold R. destruct (0 <? num_retried s); reflexivity. }
  rewrite !painted_app. rewrite (painted_puts [Put HD]) by repeat constructor. cbn [fst snd]. unfold newline, line. rewrite (painted_puts [Put ([] ++ [10])]) by repeat constructor. cbn [fst snd].
  rewrite painted_colour by (constructor; [exact I|apply PS]). cbn [fst snd]. rewrite (painted_puts [Put (t " (")]) by repeat constructor. cbn [fst snd]. rewrite (painted_puts (ps (test_time s))) by apply PS. cbn [fst snd].
  rewrite (painted_puts [Put (t " spent in test code)" ++ [10])]) by repeat constructor. cbn [fst snd]. rewrite painted_colour by repeat constructor. cbn [fst snd]. rewrite (painted_puts [Put (t ", ")]) by repeat constructor. cbn [fst snd].
  rewrite painted_colour by repeat constructor. cbn [fst snd]. rewrite ER. cbn [fst snd]. rewrite (painted_puts P1), (painted_puts P2) by auto. cbn [fst snd].
  rewrite !seen_put. rewrite (seen_app P1 P2). f_equal. change (seen (Put (t "Finished in ") :: ps (wall_time s))) with (t "Finished in " ++ seen (ps (wall_time s))).
  rewrite !map_app. set (R' := if 0 <? num_retried s then _ else _). clearbody R' HD. rewrite <- !app_assoc. reflexivity.
Qed.

From Coq Require Import Permutation.
(* ---- the suite's result ---- *)
Definition positive (c : ReportModel.counts) : Prop := StronglySorted (fun a b => (fst a < fst b)%nat) c /\ Forall (fun e => (0 < snd e)%nat) c.
Lemma bump_positive f c : positive c -> positive (ReportModel.bump f 1 c).
Proof.
  intros [S0 P]. unfold ReportModel.bump. induction c as [|[g m] c IH]; cbn; [split; repeat constructor|]. inversion S0 as [|? ? S1 F1]; inversion P as [|? ? P1 P2]; subst. cbn [fst snd] in *.
  destruct (Nat.compare_spec f g) as [->|L|L].
  - split; constructor; auto. cbn. lia.
  - split; constructor; auto. constructor; auto. eapply Forall_impl; [|exact F1]. cbn. intros. lia.
  - destruct IH as [A B]; auto. split; constructor; auto. apply Forall_forall. intros e I. apply ReportProofs.bupdate_in in I as [E|I]; [cbn; lia| |intros a b; apply Nat.compare_eq_iff].
    rewrite Forall_forall in F1. now apply F1 in I.
Qed.
Lemma sum_positive order s : Forall (fun e => positive (ReportModel.u_failures (snd e)) /\ positive (ReportModel.u_retries (snd e))) s ->
  Forall (fun e => positive (ReportModel.u_failures (snd e)) /\ positive (ReportModel.u_retries (snd e))) (fold_left ReportModel.sum_step order s).
Proof.
  revert s. induction order as [|x order IH]; intros s F; cbn [fold_left]; auto. apply IH. unfold ReportModel.sum_step. match goal with |- Forall _ (ReportModel.bupdate _ _ ?w _) => set (u := w) end.
  assert (U : forall o, (forall v, o = Some v -> positive (ReportModel.u_failures v) /\ positive (ReportModel.u_retries v)) -> positive (ReportModel.u_failures (u o)) /\ positive (ReportModel.u_retries (u o))).
  { intros o O. unfold u. set (v := match o with Some v => v | None => _ end). assert (V : positive (ReportModel.u_failures v) /\ positive (ReportModel.u_retries v)).
    { unfold v. destruct o as [w|]; auto. cbn. split; split; constructor. }
    clearbody v. destruct V as [V1 V2]. destruct (ReportModel.ts_tag x) as [|[|]| |], (ReportModel.ts_file x) as [f|], (ReportModel.ts_retried x); cbn; split; auto; now apply bump_positive. }
  clearbody u. induction F as [|[k v] s V F IH2]; cbn.
  - constructor; auto. apply U. discriminate.
  - destruct (ReportModel.runner_cmp _ _); constructor; auto.
    + cbn. apply U. intros w E. now injection E as <-.
    + cbn. apply U. discriminate.
Qed.
Definition named (name : nat -> text) (c : ReportModel.counts) : counts := map (fun e => (name (fst e), N.of_nat (snd e))) c.
Lemma named_nodup name c : (forall a b, name a = name b -> a = b) -> positive c -> NoDup (map fst (named name c)).
Proof.
  intros J [S0 _]. unfold named. induction S0 as [|e c S0 IH F]; cbn; constructor; auto. intros I. apply in_map_iff in I as ([g n] & E & I). apply in_map_iff in I as (e' & X & I). injection X as <- <-. apply J in E.
  rewrite Forall_forall in F. apply F in I. cbn in *. lia.
Qed.
Lemma named_count name c f : (forall a b, name a = name b -> a = b) -> count_in (name f) (named name c) = N.of_nat (ReportSpec.count_of f c).
Proof.
  intros J. unfold count_in, ReportSpec.count_of, named. induction c as [|[g n] c IH]; auto. cbn [map fst snd fold_right]. change (list_sum (?a :: ?b)) with (a + list_sum b)%nat. rewrite IH.
  destruct (Nat.eqb_spec g f) as [->|N0].
  - rewrite eqb_refl. lia.
  - destruct (text_eqb (name g) (name f)) eqn:E; [apply eqb_iff, J in E; easy|]. lia.
Qed.
Lemma count_perm f a b : Permutation a b -> count_in f a = count_in f b.
Proof. unfold count_in. induction 1; cbn; lia. Qed.
Lemma count_of_cons f e c : ReportSpec.count_of f (e :: c) = ((if Nat.eqb (fst e) f then snd e else 0) + ReportSpec.count_of f c)%nat. Proof. reflexivity. Qed.
Definition whose (g : grouping) (k : nat) (r : nat * nat) : bool := Nat.eqb (match g with Worker => fst r | Runner => snd r end) k.
Section Suite.
Context (name : nat -> text) (walk : counts -> counts) (J : forall a b, name a = name b -> a = b) (W : forall c, Permutation (walk c) c).
Lemma suite_total (sel : runner_summary -> counts) (rsel : ReportModel.summary -> ReportModel.counts) wall test g s k f :
  (sel = failures_per_file /\ rsel = ReportModel.u_failures \/ sel = retries_per_file /\ rsel = ReportModel.u_retries) ->
  let us := filter (belongs g (N.of_nat k)) (runner_summaries (of_suite name walk wall test g s)) in
  total sel (name f) us = N.of_nat (ReportSpec.total rsel (whose g k) f (ReportModel.s_runners s)) /\
  (Forall (fun u => positive (rsel u)) (ReportModel.s_runners s) -> counted sel (name f) us <-> ReportSpec.total rsel (whose g k) f (ReportModel.s_runners s) <> 0%nat).
Proof.
  intros K us. unfold us, of_suite. cbn [runner_summaries]. clear us. induction (ReportModel.s_runners s) as [|u l [IH1 IH2]].
  - split; [reflexivity|]. intros _. cbn. split; [intros (x & n & [] & _)|easy].
  - cbn [map filter]. set (v := Build_runner_summary _ _ _) in *. unfold ReportSpec.total. cbn [map]. change (list_sum (?a :: ?b)) with (a + list_sum b)%nat. fold (ReportSpec.total rsel (whose g k) f l).
    assert (E : belongs g (N.of_nat k) v = whose g k (ReportModel.u_runner u)).
    { unfold belongs, whose. apply eq_true_iff_eq. rewrite N.eqb_eq, Nat.eqb_eq. destruct g; cbn; lia. }
    rewrite E. clear E. destruct (whose g k (ReportModel.u_runner u)).
    + assert (V : sel v = walk (named name (rsel u))) by (destruct K as [[-> ->]|[-> ->]]; reflexivity).
      assert (CI : count_in (name f) (sel v) = N.of_nat (ReportSpec.count_of f (rsel u))) by (rewrite V, (count_perm _ _ _ (W _)); now apply named_count).
      split.
      * change (total sel (name f) (v :: ?x)) with (count_in (name f) (sel v) + total sel (name f) x). rewrite IH1, CI. lia.
      * intros F. inversion F as [|? ? F1 F2]; subst. rewrite counted_cons, IH2 by auto.
        assert (X : In (name f) (map fst (sel v)) <-> ReportSpec.count_of f (rsel u) <> 0%nat); [|rewrite X; clear; set (p := ReportSpec.count_of _ _); set (q := ReportSpec.total _ _ _ _); clearbody p q; lia].
        rewrite V. split.
        -- intros I. apply (Permutation_in _ (Permutation_map fst (W _))) in I. apply in_map_iff in I as ([? ?] & E & I). apply in_map_iff in I as ([g' m] & X & I). injection X as <- <-. cbn in E. apply J in E as ->.
           destruct F1 as [_ F1]. rewrite Forall_forall in F1. specialize (F1 _ I). cbn in F1. clear - I F1. induction (rsel u) as [|e c IH]; [easy|]. rewrite count_of_cons. destruct I as [->|I]; [cbn [fst snd]; rewrite Nat.eqb_refl; lia|]. specialize (IH I). lia.
        -- intros C. apply (Permutation_in _ (Permutation_map fst (Permutation_sym (W _)))). clear - C. unfold named in *. induction (rsel u) as [|e c IH]; [easy|]. rewrite count_of_cons in C. cbn [map fst]. destruct (Nat.eqb_spec (fst e) f) as [<-|N0]; [now left|]. right. now apply IH.
    + split; [exact IH1|]. intros F. inversion F; subst. now apply IH2.
Qed.
Lemma suite_maps k o1 o2 k' wall test g s : ReportModel.suite_result k o1 o2 = (k', s) -> maps (of_suite name walk wall test g s) /\
  Forall (fun u => positive (ReportModel.u_failures u)) (ReportModel.s_runners s) /\ Forall (fun u => positive (ReportModel.u_retries u)) (ReportModel.s_runners s).
Proof.
  intros E. assert (P : Forall (fun u => positive (ReportModel.u_failures u) /\ positive (ReportModel.u_retries u)) (ReportModel.s_runners s)).
  { unfold ReportModel.suite_result in E. destruct (ReportModel.load_metrics k o1) as [k2 m]. injection E as _ <-. cbn. pose proof (sum_positive o2 [] (Forall_nil _)) as Q. rewrite Forall_forall in *. intros u I. apply in_map_iff in I as (e & <- & I). now apply Q. }
  split.
  - intros u I. cbn in I. apply in_map_iff in I as (v & <- & I). rewrite Forall_forall in P. apply P in I as [A B]. cbn.
    split; (eapply Permutation_NoDup; [apply Permutation_map, Permutation_sym, W|]); now apply (named_nodup name).
  - split; (eapply Forall_impl; [|exact P]); cbn; tauto.
Qed.
Lemma suite_one_line wall test g s : (forall a, ~ In 10 (name a)) -> one_line (of_suite name walk wall test g s).
Proof.
  intros L u f n I K. cbn in I. apply in_map_iff in I as (v & <- & I). cbn in K. rewrite in_app_iff in K.
  destruct K as [K|K]; apply (Permutation_in _ (W _)) in K; apply in_map_iff in K as (e & X & K); injection X as <- <-; apply L.
Qed.
End Suite.
