From Verif Require Import Base OffloadModel ResultsFsModel ResultsFsSpec.

Lemma set_eq {B} (f : run_id -> B) r b : set f r b r = b.
Proof. unfold set. now rewrite Nat.eqb_refl. Qed.
Lemma set_ne {B} (f : run_id -> B) r b r' : r' <> r -> set f r b r' = f r'.
Proof. intros H. unfold set. now rewrite (proj2 (Nat.eqb_neq _ _) H). Qed.

(* What is stored for a run that the process has touched. *)
Definition holds noop st (r : run_id) (b : bytes) : Prop :=
  (fs_cache st r = Some FdOpen /\ contents (fs_disk st r) = b) \/
  (fs_cache st r = Some FdOffloaded /\ fs_remote st r = Some b /\ noop = false).

Lemma dumped_app r l1 l2 : dumped r (l1 ++ l2) = dumped r l1 ++ dumped r l2.
Proof. induction l1 as [|[] l1 IH]; simpl; rewrite ?IH, ?app_assoc; auto. Qed.

Section Proofs.
Context (noop : bool).

(* Operations on other runs. *)
Definition ev_run (ev : event) : option run_id :=
  match ev with
  | FEnsure r _ | FDump r _ _ _ | FRead r _ | FDumpRemote r _ _ | FOffload r _ _ _ _ => Some r
  | FRestart => None
  end.

Ltac rdx := simpl in *; unfold with_open, load, store, open_file, say, put_disk, put_cache, put_remote in *; simpl in *.
Ltac brk := repeat (match goal with
  | |- context [match ?x with _ => _ end] =>
      lazymatch x with context [match _ with _ => _ end] => fail | _ => destruct x eqn:?; simpl in * end
  end); simpl in *.

Lemma other_run st ev r : ev_run ev <> Some r -> ev <> FRestart ->
  fs_disk (step noop st ev) r = fs_disk st r /\ fs_cache (step noop st ev) r = fs_cache st r /\
  fs_remote (step noop st ev) r = fs_remote st r /\
  exists os, fs_log (step noop st ev) = fs_log st ++ os /\ dumped r os = [].
Proof.
  intros H HR. destruct ev as [r0 l|r0 line l w|r0 l|r0 l s|r0 cf nw ac o|]; try congruence;
    assert (Hn : r <> r0) by (simpl in H; congruence);
    assert (Hn' : Nat.eqb r0 r = false) by (apply Nat.eqb_neq; congruence);
    rdx; brk; rdx; brk; rewrite ?set_ne by auto; repeat split; auto; 
    try (exists []; rewrite app_nil_r; split; reflexivity);
    try (eexists; split; [reflexivity|]; simpl; rewrite ?Hn'; reflexivity).
Qed.

Lemma log_not_snoc (l : list answer) a : l <> l ++ [a].
Proof. intros H. apply (f_equal (@length _)) in H. rewrite app_length in H. simpl in H. lia. Qed.

Lemma reads_iff st r b : reads noop st r b <-> holds noop st r b.
Proof.
  unfold reads, holds. rdx. destruct (fs_cache st r) as [[|]|] eqn:E; simpl.
  - split.
    + intros H. apply app_inv_head in H. injection H as <-. auto.
    + intros [[_ <-]|(? & _)]; [auto|discriminate].
  - destruct (fs_remote st r) as [b0|] eqn:R; simpl; [destruct noop; simpl|]; rewrite ?set_eq; simpl; split.
    + intros H. apply app_inv_head in H. discriminate.
    + intros [(? & _)|(_ & _ & ?)]; discriminate.
    + intros H. apply app_inv_head in H. injection H as <-. auto.
    + intros [(? & _)|(_ & [= <-] & _)]; [discriminate|auto].
    + intros H. apply app_inv_head in H. discriminate.
    + intros [(? & _)|(_ & ? & _)]; discriminate.
  - split; intros H.
    + now apply log_not_snoc in H.
    + destruct H as [[? _]|[? _]]; discriminate.
Qed.

Ltac fin := eexists; split; [simpl; reflexivity|]; unfold holds; simpl; rewrite ?set_eq; simpl;
  rewrite ?Nat.eqb_refl, ?app_nil_r; auto.

Lemma holds_step st ev r b : holds noop st r b -> clean noop r ev ->
  exists os, fs_log (step noop st ev) = fs_log st ++ os /\ holds noop (step noop st ev) r (b ++ dumped r os).
Proof.
  intros H C. destruct (option_map (Nat.eqb r) (ev_run ev)) as [[|]|] eqn:ER.
  2:{ destruct (ev_run ev) as [r0|] eqn:E0; [|discriminate]. simpl in ER. injection ER as ER. apply Nat.eqb_neq in ER.
    destruct (other_run st ev r) as (A & B & D & os & E & F); [rewrite E0; congruence|intros ->; discriminate|].
    exists os. split; auto. rewrite F, app_nil_r. unfold holds in *. now rewrite A, B, D. }
  2:{ destruct ev; try discriminate. destruct C. }
  destruct ev as [r0 l|r0 line l w|r0 l|r0 l s|r0 cf nw ac o|]; simpl in ER; try discriminate;
    injection ER as ER; apply Nat.eqb_eq in ER; subst r0; simpl in C.
  - (* ensure *) exists []. rewrite app_nil_r. simpl.
    destruct H as [[H1 H2]|(H1 & H2 & H3)]; rewrite H1; split; auto using app_nil_r.
    all: rewrite app_nil_r; unfold holds; auto.
  - destruct w as [|n]; [|congruence].
    destruct H as [[H1 H2]|(H1 & H2 & H3)]; rdx; rewrite H1.
    + fin. left. split; auto. now rewrite <- H2.
    + destruct l as [|[b0|]]; rewrite ?H2, ?H3; simpl; fin.
  - destruct H as [[H1 H2]|(H1 & H2 & H3)]; rdx; rewrite H1.
    + fin.
    + destruct l as [|[b0|]]; rewrite ?H2, ?H3; simpl; fin.
  - destruct H as [[H1 H2]|(H1 & H2 & H3)]; rdx; rewrite H1.
    + destruct s as [|[x|]]; [destruct noop|destruct noop|]; fin.
    + destruct l as [|[b0|]]; rewrite ?H2, ?H3; simpl; [destruct s as [|[x|]]|..]; simpl; fin.
  - destruct H as [[H1 H2]|(H1 & H2 & H3)]; rdx; rewrite H1.
    + destruct (file_eligible _ _ _ _) as [[|]|]; simpl; [|fin..].
      destruct o as [| |[x|]| |]; simpl; try congruence.
      * rewrite (C eq_refl). fin. right. rewrite H2. auto.
      * fin.
      * destruct noop; fin.
      * fin.
      * destruct noop; fin.
    + fin.
Qed.

Lemma holds_run es : forall st r b, holds noop st r b -> (forall ev, In ev es -> clean noop r ev) ->
  exists os, fs_log (run (step noop) st es) = fs_log st ++ os /\ holds noop (run (step noop) st es) r (b ++ dumped r os).
Proof.
  induction es as [|ev es IH]; intros st r b H C; simpl.
  - exists []. now rewrite !app_nil_r.
  - destruct (holds_step st ev r b H) as (o1 & E1 & H1); [apply C; now left|].
    destruct (IH _ r _ H1) as (o2 & E2 & H2); [intros; apply C; now right|].
    exists (o1 ++ o2). rewrite E2, E1, dumped_app, <- !app_assoc in *. split; [auto|]. now rewrite app_assoc in *.
Qed.

(* Every answer to a read made in the future. *)
Lemma read_answer st r b l : holds noop st r b ->
  fs_log (step noop st (FRead r l)) = fs_log st ++ [ARead r b] \/
  (fs_log (step noop st (FRead r l)) = fs_log st ++ [AReadFailed r] /\ exists x, l = LoadFail x).
Proof.
  intros [[H1 H2]|(H1 & H2 & H3)]; rdx; rewrite H1; simpl.
  - left. now rewrite H2.
  - destruct l as [|[b0|]]; rewrite ?H2, ?H3; simpl; rewrite ?set_eq; simpl; eauto.
Qed.
End Proofs.
