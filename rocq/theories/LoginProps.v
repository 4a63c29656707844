(* C87: the access token that `abq login` was given is the one later commands use. *)
From Verif Require Import Base LoginModel LoginSpec LoginProofs.
From Coq Require Import NArith Lia.
Local Open Scope list_scope.

(* In the histories below [es] is whatever logins and other commands did before, each up to any point. *)

(* A token on the command line is used, whatever the file says. *)
Theorem C87_argument : forall toml untoml conventional f es t env ok,
  st_log (after toml untoml conventional f (es ++ [Use (Some t) env ok])) =
  st_log (after toml untoml conventional f es) ++ [Used (Some t)].
Proof. intros. unfold after, run. rewrite fold_left_app. reflexivity. Qed.
Print Assumptions C87_argument.

(* Without one: the token that the last login to the file was given, if that login said it was done. *)
Theorem C87_stored_partial : forall toml untoml conventional f es env p k l,
  good_toml toml untoml ->
  let log := st_log (after toml untoml conventional f es) in
  no_overlap log ->
  config_path conventional env = Some p ->
  latest log p k -> In (Exited k true) log -> given es k l ->
  st_log (after toml untoml conventional f (es ++ [Use None env true])) = log ++ [Used (Some (login_token l))].
Proof.
  intros toml untoml conventional f es env p k l G log Hno Hp Hl Hx Hg. subst log.
  destruct (inv_after toml untoml conventional f es) as [P E U F].
  destruct (F Hno p k Hl) as (l0 & ph & n & H1 & H2 & H3 & H4 & H5).
  destruct (E _ Hx) as (l1 & Hl1). destruct (given_found toml untoml conventional f es k l Hg) as (ph2 & Hf2).
  assert (l0 = l) as -> by congruence. assert (ph = Ended true) as -> by congruence. subst n. rewrite firstn_all in H3.
  unfold after in *. unfold run in *. rewrite fold_left_app. cbn [fold_left step st_log]. unfold token_used, read_config. rewrite Hp, H3, (toml_reads _ _ G).
  reflexivity.
Qed.
Print Assumptions C87_stored_partial.

(* Wherever the last login got to, or was killed: its token or none, never another. *)
Theorem C87_never_another_partial : forall toml untoml conventional f es env ok p k l,
  good_toml toml untoml ->
  let log := st_log (after toml untoml conventional f es) in
  no_overlap log ->
  config_path conventional env = Some p -> latest log p k -> given es k l ->
  exists t, st_log (after toml untoml conventional f (es ++ [Use None env ok])) = log ++ [Used t] /\ (t = None \/ t = Some (login_token l)).
Proof.
  intros toml untoml conventional f es env ok p k l G log Hno Hp Hl Hg. subst log.
  destruct (inv_after toml untoml conventional f es) as [P E U F].
  destruct (F Hno p k Hl) as (l0 & ph & n & H1 & H2 & H3 & H4 & H5).
  destruct (given_found toml untoml conventional f es k l Hg) as (ph2 & Hf2). assert (l0 = l) as -> by congruence.
  unfold after in *. unfold run in *. rewrite fold_left_app. cbn [fold_left step st_log]. unfold token_used, read_config. rewrite Hp, H3.
  destruct ok; [| eauto]. destruct (toml_cut _ _ G (login_token l) n) as [-> | ->]; eauto.
Qed.
Print Assumptions C87_never_another_partial.

(* A file that no login truncated is as it was. *)
Theorem C87_untouched : forall toml untoml conventional f es p,
  untouched (st_log (after toml untoml conventional f es)) p -> st_files (after toml untoml conventional f es) p = f p.
Proof. intros. now apply (i_untouched _ _ _ _ (inv_after toml untoml conventional f es)). Qed.
Print Assumptions C87_untouched.

(* A login truncates no file but the one its environment names: ABQ_CONFIG_FILE if set, and otherwise
   the conventional one; one that says it is done did truncate it. *)
Theorem C87_where : forall toml untoml conventional f es k l,
  given es k l ->
  let log := st_log (after toml untoml conventional f es) in
  (forall p, In (Truncated k p) log -> (lg_env l = Some p /\ p <> []) \/ (lg_env l = None /\ p = conventional)) /\
  (In (Exited k true) log -> exists p, In (Truncated k p) log).
Proof.
  intros toml untoml conventional f es k l Hg log. subst log. split.
  - intros p Hin. pose proof (truncated_where toml untoml conventional f es k l Hg p Hin) as H.
    unfold config_path in H. destruct (lg_env l) as [[| c q] |]; [discriminate | |]; injection H as <-; [left | right]; split; congruence.
  - intros Hx. destruct (inv_after toml untoml conventional f es) as [P E U F]. destruct (E _ Hx) as (l0 & H0).
    destruct (P _ _ _ H0) as (p & _ & H). eauto.
Qed.
Print Assumptions C87_where.

(* ABQ_CONFIG_FILE set to nothing: no login succeeds or writes, and no token is found. *)
Theorem C87_ignored : forall toml untoml conventional f es,
  (forall k l, given es k l -> lg_env l = Some [] ->
     let log := st_log (after toml untoml conventional f es) in
     In (Exited k false) log /\ ~ In (Exited k true) log /\ forall p, ~ In (Truncated k p) log) /\
  (forall ok, st_log (after toml untoml conventional f (es ++ [Use None (Some []) ok])) =
     st_log (after toml untoml conventional f es) ++ [Used None]).
Proof.
  intros toml untoml conventional f es. split.
  - intros k l Hg He log. subst log. destruct (C87_where toml untoml conventional f es k l Hg) as [H1 H2].
    assert (forall p, ~ In (Truncated k p) (st_log (after toml untoml conventional f es))) as Hn.
    { intros p Hin. destruct (H1 p Hin) as [[E Hp] | [E _]]; rewrite He in E; [injection E as <-; now apply Hp | discriminate]. }
    split; [| split; [| exact Hn]].
    + apply (ignored_exits toml untoml conventional f es k l Hg). unfold config_path. now rewrite He.
    + intros Hx. destruct (H2 Hx) as (p & Hp). exact (Hn p Hp).
  - intros ok. unfold after, run. rewrite fold_left_app. reflexivity.
Qed.
Print Assumptions C87_ignored.

(* A token that is typed is taken without the white space around it, one on the command line as it is. *)
Theorem C87_input : forall l,
  match lg_argument l with Some t => login_token l = t | None => trimmed (lg_input l) (login_token l) end.
Proof. intros [[t |] x e]; unfold login_token; cbn; [reflexivity | apply trim_trimmed]. Qed.
Print Assumptions C87_input.

(* What one would want besides and does not hold. *)

(* A login that is killed after it truncated the file, or whose write fails, loses the token that was
   stored before: the commands after it find none. *)
Theorem C87_interrupted_refuted : forall toml untoml conventional f t t', good_toml toml untoml ->
  let a := {| lg_argument := Some t; lg_input := []; lg_env := None |} in
  let b := {| lg_argument := Some t'; lg_input := []; lg_env := None |} in
  let es := [Start 0 a; Open 0 true; Write 0 (length (toml t)); Use None None true; Start 1 b; Open 1 true; WriteError 1; Use None None true] in
  exists x, st_log (after toml untoml conventional f es) = x ++ [Used (Some t); Truncated 1 conventional; Exited 1 false; Used None].
Proof.
  intros toml untoml conventional f t t' G a b es.
  exists [Truncated 0 conventional; Wrote 0 (length (firstn (length (toml t)) (toml t))); Exited 0 true].
  subst es. unfold after, run. cbn [fold_left step start st_logins st_files st_log find_login Nat.eqb lg_env config_path a b app set_phase login_token lg_argument end_login].
  rewrite set_file_same, skipn_all. cbn [st_logins st_files st_log find_login Nat.eqb set_phase app end_login].
  rewrite !firstn_all. unfold token_used, read_config, config_path. rewrite !set_file_same, (toml_empty _ _ G).
  rewrite overwrite_end by reflexivity. cbn [app]. rewrite (toml_reads _ _ G). reflexivity.
Qed.
Print Assumptions C87_interrupted_refuted.

(* Two logins at the same time may both succeed and leave a file that no command can read. *)
Definition ex_login (t : token) : login := {| lg_argument := Some t; lg_input := []; lg_env := None |}.
Definition ex_overlapping : list event :=
  [Start 0 (ex_login [65; 66; 67]%N); Start 1 (ex_login [68]%N); Open 0 true; Open 1 true; Write 0 100; Write 1 100; Use None None true].
Theorem C87_overlap_refuted :
  let log := st_log (after ex_toml ex_untoml [47; 99] (fun _ => None) ex_overlapping) in
  In (Exited 0 true) log /\ In (Exited 1 true) log /\ In (Used None) log /\ ~ no_overlap log.
Proof.
  cbv zeta. vm_compute st_log. split; [| split; [| split]].
  - do 3 right. left. reflexivity.
  - do 5 right. left. reflexivity.
  - do 6 right. left. reflexivity.
  - intros H. eapply (H [] 0 [47; 99] [] 1); [reflexivity | discriminate | left; reflexivity].
Qed.
Print Assumptions C87_overlap_refuted.

(* `abq login` without input stores an empty token and says it is done; the commands after it use that. *)
Theorem C87_empty_refuted : forall toml untoml conventional f, good_toml toml untoml ->
  let a := {| lg_argument := None; lg_input := []; lg_env := None |} in
  exists x, st_log (after toml untoml conventional f [Start 0 a; Open 0 true; Write 0 (length (toml [])); Use None None true]) =
    x ++ [Exited 0 true; Used (Some [])].
Proof.
  intros toml untoml conventional f G a.
  exists [Truncated 0 conventional; Wrote 0 (length (firstn (length (toml [])) (toml [])))].
  unfold after, run. cbn [fold_left step start st_logins st_files st_log find_login Nat.eqb lg_env config_path a app set_phase end_login].
  change (login_token a) with (@nil N).
  rewrite set_file_same, skipn_all. cbn [st_logins st_files st_log find_login Nat.eqb set_phase app end_login].
  rewrite !firstn_all. unfold token_used, read_config, config_path. rewrite !set_file_same.
  rewrite overwrite_end by reflexivity. cbn [app]. rewrite (toml_reads _ _ G). reflexivity.
Qed.
Print Assumptions C87_empty_refuted.

(* The hypotheses are met. *)
Example ex_c87_toml : good_toml ex_toml ex_untoml.
Proof. exact ex_good_toml. Qed.
(* a login, one to another file under way, one killed before it opened the file, and a second login in two writes, with a typed token *)
Definition ex_history : list event :=
  [Start 0 (ex_login [65; 66; 67]%N); Open 0 true; Write 0 100;
   Start 1 {| lg_argument := Some [88]%N; lg_input := []; lg_env := Some [47; 100] |}; Open 1 true; Write 1 3;
   Start 2 (ex_login [90]%N);
   Start 3 {| lg_argument := None; lg_input := [32; 92; 34; 68; 10]%N; lg_env := None |}; Open 3 true; Write 3 21; Write 3 30].
Definition ex_log : list effect := Eval vm_compute in st_log (after ex_toml ex_untoml [47; 99] (fun _ => None) ex_history).
Example ex_c87_hyp : st_log (after ex_toml ex_untoml [47; 99] (fun _ => None) ex_history) = ex_log /\
  no_overlap ex_log /\ latest ex_log [47; 99] 3 /\ In (Exited 3 true) ex_log /\ latest ex_log [47; 100] 1 /\ untouched ex_log [47].
Proof.
  split; [vm_compute; reflexivity |]. split; [apply check_overlap_ok; vm_compute; reflexivity |].
  split; [| split; [| split]].
  - exists (firstn 5 ex_log), (skipn 6 ex_log). split; [reflexivity |]. intros k H. vm_compute in H. intuition discriminate.
  - vm_compute. intuition.
  - exists (firstn 3 ex_log), (skipn 4 ex_log). split; [reflexivity |]. intros k H. vm_compute in H. intuition discriminate.
  - intros k H. vm_compute in H. intuition discriminate.
Qed.
Example ex_c87_used : forall e, In e [None; Some [47; 99]] ->
  st_log (after ex_toml ex_untoml [47; 99] (fun _ => None) (ex_history ++ [Use None e true])) = ex_log ++ [Used (Some [92; 34; 68]%N)].
Proof. intros e [<- | [<- | []]]; vm_compute; reflexivity. Qed.
Example ex_c87_cut : st_log (after ex_toml ex_untoml [47; 99] (fun _ => None) (ex_history ++ [Use None (Some [47; 100]) true])) = ex_log ++ [Used None].
Proof. vm_compute; reflexivity. Qed.
