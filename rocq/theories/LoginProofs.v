(* Proofs about `abq login`. *)
From Verif Require Import Base LoginModel LoginSpec.
From Coq Require Import NArith Lia.
Local Open Scope list_scope.

Lemma find_set_same : forall k ph l lg x, find_login k l = Some (lg, x) -> find_login k (set_phase k ph l) = Some (lg, ph).
Proof.
  intros k ph l; induction l as [| [k' [lg' x']] l IH]; cbn; intros lg x H; [discriminate |].
  destruct (Nat.eqb k k') eqn:E; cbn; rewrite E; [congruence | eauto].
Qed.
Lemma find_set_other : forall k k0 ph l, k0 <> k -> find_login k0 (set_phase k ph l) = find_login k0 l.
Proof.
  intros k k0 ph l Hne; induction l as [| [k' [lg' x']] l IH]; cbn; [reflexivity |].
  destruct (Nat.eqb k k') eqn:E; cbn.
  - apply Nat.eqb_eq in E as ->. destruct (Nat.eqb k0 k') eqn:E0; [apply Nat.eqb_eq in E0; contradiction | reflexivity].
  - destruct (Nat.eqb k0 k'); auto.
Qed.
Lemma find_app : forall k l k1 x, find_login k (l ++ [(k1, x)]) =
  match find_login k l with Some y => Some y | None => if Nat.eqb k k1 then Some x else None end.
Proof. intros k l k1 x; induction l as [| [k' x'] l IH]; cbn; [reflexivity |]. destruct (Nat.eqb k k'); auto. Qed.

Lemma set_file_same : forall f p b, set_file f p b p = Some b.
Proof. intros f p b. unfold set_file. destruct (path_dec p p); congruence. Qed.
Lemma set_file_other : forall f p b q, q <> p -> set_file f p b q = f q.
Proof. intros f p b q H. unfold set_file. destruct (path_dec q p); congruence. Qed.

Lemma no_overlap_prefix : forall l x, no_overlap (l ++ x) -> no_overlap l.
Proof.
  intros l x H a k p b k' c n -> Hne Hin.
  apply (H a k p b k' (c ++ x) n); [rewrite <- app_assoc; cbn; rewrite <- app_assoc; reflexivity | assumption | apply in_or_app; auto].
Qed.

Lemma exists_last_or_nil : forall {A} (l : list A), l = [] \/ exists l0 x, l = l0 ++ [x].
Proof. intros A l. destruct l as [| x l] using rev_ind; [left; reflexivity | right; eauto]. Qed.

Lemma untouched_snoc : forall log e p, untouched (log ++ [e]) p -> untouched log p.
Proof. intros log e p H k Hin. apply (H k), in_or_app; auto. Qed.
Lemma latest_snoc : forall log e p k, latest (log ++ [e]) p k -> (forall k', e <> Truncated k' p) -> latest log p k.
Proof.
  intros log e p k (a & b & E & Hb) He. destruct (exists_last_or_nil b) as [-> | (b' & y & ->)].
  - apply app_inj_tail in E as [_ ->]. exfalso. apply (He k). reflexivity.
  - rewrite app_comm_cons, app_assoc in E. apply app_inj_tail in E as [-> ->].
    exists a, b'. split; [reflexivity |]. intros k' Hin. apply (Hb k'), in_or_app; auto.
Qed.
Lemma latest_trunc : forall log p k k', latest (log ++ [Truncated k p]) p k' -> k' = k.
Proof.
  intros log p k k' (a & b & E & Hb). destruct (exists_last_or_nil b) as [-> | (b' & y & ->)].
  - apply app_inj_tail in E as [_ E]. congruence.
  - rewrite app_comm_cons, app_assoc in E. apply app_inj_tail in E as [_ <-]. exfalso. apply (Hb k), in_or_app. right. left. reflexivity.
Qed.
Lemma latest_in : forall log p k, latest log p k -> In (Truncated k p) log.
Proof. intros log p k (a & b & -> & _). apply in_or_app. right. left. reflexivity. Qed.
Lemma latest_or_untouched : forall log p, untouched log p \/ exists k, latest log p k.
Proof.
  intros log p; induction log as [| e log [IH | [k (a & b & -> & Hb)]]].
  - left. intros k [].
  - assert (forall k q, e = Truncated k q -> q = p -> exists k, latest (e :: log) p k) as H.
    { intros k q -> ->. exists k, [], log. split; [reflexivity |]. exact IH. }
    destruct e as [k q | | |]; try (left; intros k' [E | Hin]; [discriminate | now apply (IH k')]).
    destruct (path_dec q p) as [E | E]; [right; eauto |].
    left. intros k' [E' | Hin]; [congruence | now apply (IH k')].
  - right. exists k, (e :: a), b. split; [reflexivity | exact Hb].
Qed.

Lemma skipn_skipn : forall {A} n m (l : list A), skipn m (skipn n l) = skipn (n + m) l.
Proof. intros A n m; induction n as [| n IH]; intros [| x l]; cbn; auto. now rewrite skipn_nil. Qed.
Lemma firstn_more : forall {A} (x : list A) n m, n <= length x ->
  firstn n x ++ firstn m (skipn n x) = firstn (n + length (firstn m (skipn n x))) x.
Proof.
  intros A x n; revert x; induction n as [| n IH]; intros [| y x] m H; cbn in *; try lia.
  - now rewrite firstn_nil.
  - rewrite firstn_length. cbn. destruct (Nat.le_gt_cases m (S (length x))) as [Hm | Hm].
    + now rewrite Nat.min_l by lia.
    + rewrite Nat.min_r by lia. rewrite !firstn_all2 by (cbn; lia). reflexivity.
  - f_equal. apply IH. lia.
Qed.
Lemma overwrite_end : forall b n chunk, n = length b -> overwrite b n chunk = b ++ chunk.
Proof.
  intros b n chunk ->. unfold overwrite. rewrite firstn_all, Nat.sub_diag, skipn_all2 by lia. cbn. rewrite app_nil_r. reflexivity.
Qed.

Section Login.
Context (toml : token -> text) (untoml : text -> option token) (conventional : path).
Notation step := (LoginModel.step toml untoml conventional).
Notation after := (LoginModel.after toml untoml conventional).

Definition phase_ok (log : list effect) (k : nat) (l : login) (ph : phase) : Prop :=
  match ph with
  | Opening p => config_path conventional (lg_env l) = Some p
  | Writing p rest n => config_path conventional (lg_env l) = Some p /\ In (Truncated k p) log /\
                        rest = skipn n (toml (login_token l)) /\ n <= length (toml (login_token l))
  | Ended true => exists p, config_path conventional (lg_env l) = Some p /\ In (Truncated k p) log
  | Ended false => True
  end.
Definition file_ok (s : state) (p : path) (k : nat) : Prop :=
  exists l ph n, find_login k (st_logins s) = Some (l, ph) /\ config_path conventional (lg_env l) = Some p /\
    st_files s p = Some (firstn n (toml (login_token l))) /\ n <= length (toml (login_token l)) /\
    match ph with
    | Opening _ => False
    | Writing _ _ m => m = n
    | Ended true => n = length (toml (login_token l))
    | Ended false => True
    end.
Record inv (f : files) (s : state) : Prop := {
  i_phase : forall k l ph, find_login k (st_logins s) = Some (l, ph) -> phase_ok (st_log s) k l ph;
  i_exited : forall k, In (Exited k true) (st_log s) -> exists l, find_login k (st_logins s) = Some (l, Ended true);
  i_untouched : forall p, untouched (st_log s) p -> st_files s p = f p;
  i_file : no_overlap (st_log s) -> forall p k, latest (st_log s) p k -> file_ok s p k }.

Lemma phase_ok_snoc : forall log e k l ph, phase_ok log k l ph -> phase_ok (log ++ [e]) k l ph.
Proof.
  intros log e k l ph H. destruct ph as [p | p rest n | []]; cbn in *; rewrite ?in_app_iff; try tauto.
  destruct H as (p & E & Hin). exists p. rewrite in_app_iff. auto.
Qed.

(* a login that is under way ends *)
Lemma inv_end : forall f s k b l ph, inv f s -> find_login k (st_logins s) = Some (l, ph) ->
  (forall b', ph <> Ended b') ->
  (b = true -> exists p n, ph = Writing p [] n) ->
  inv f (end_login s k b).
Proof.
  intros f s k b l ph [P E U F] Hk Hph Hb. unfold end_login. constructor; cbn.
  - intros k0 l0 ph0 H0. destruct (Nat.eq_dec k0 k) as [-> | Hne].
    + erewrite find_set_same in H0 by eassumption. assert (l0 = l) as -> by congruence. assert (ph0 = Ended b) as -> by congruence.
      destruct b; [| exact I]. destruct (Hb eq_refl) as (p & n & ->). destruct (P _ _ _ Hk) as (H1 & H2 & _).
      cbn. exists p. rewrite in_app_iff. auto.
    + rewrite find_set_other in H0 by assumption. apply phase_ok_snoc, P, H0.
  - intros k0 Hin. apply in_app_or in Hin as [Hin | [Hin | []]].
    + destruct (E _ Hin) as (l0 & Hl0). destruct (Nat.eq_dec k0 k) as [-> | Hne]; [exfalso; apply (Hph true); congruence |].
      exists l0. rewrite find_set_other by assumption. exact Hl0.
    + injection Hin as -> ->. exists l. eapply find_set_same; eassumption.
  - intros p H. apply U, (untouched_snoc _ _ _ H).
  - intros Hno p k0 Hl. apply no_overlap_prefix in Hno. apply latest_snoc in Hl; [| congruence].
    destruct (F Hno p k0 Hl) as (l0 & ph0 & n & H1 & H2 & H3 & H4 & H5).
    destruct (Nat.eq_dec k0 k) as [-> | Hne].
    + assert (l0 = l) as -> by congruence. assert (ph0 = ph) as -> by congruence.
      exists l, (Ended b), n. cbn. split; [eapply find_set_same; eassumption |]. split; [assumption |]. split; [assumption |].
      split; [assumption |]. destruct b; [| exact I]. destruct (Hb eq_refl) as (p' & n' & ->).
      destruct (P _ _ _ Hk) as (_ & _ & Hr & Hle). cbn in H5. subst n'. symmetry in Hr.
      apply (f_equal (@length _)) in Hr. rewrite skipn_length in Hr. cbn in Hr. lia.
    + exists l0, ph0, n. cbn. rewrite find_set_other by assumption. auto.
Qed.

Lemma inv_trunc : forall f s k l p, inv f s -> find_login k (st_logins s) = Some (l, Opening p) ->
  inv f {| st_files := set_file (st_files s) p []; st_logins := set_phase k (Writing p (toml (login_token l)) 0) (st_logins s);
           st_log := st_log s ++ [Truncated k p] |}.
Proof.
  intros f s k l p [P E U F] Hk. pose proof (P _ _ _ Hk) as Hp. cbn in Hp. constructor; cbn.
  - intros k0 l0 ph0 H0. destruct (Nat.eq_dec k0 k) as [-> | Hne].
    + erewrite find_set_same in H0 by eassumption. assert (l0 = l) as -> by congruence.
      assert (ph0 = Writing p (toml (login_token l)) 0) as -> by congruence. cbn. split; [assumption |].
      split; [apply in_or_app; right; left; reflexivity |]. split; [reflexivity | lia].
    + rewrite find_set_other in H0 by assumption. apply phase_ok_snoc, P, H0.
  - intros k0 Hin. apply in_app_or in Hin as [Hin | [Hin | []]]; [| discriminate].
    destruct (E _ Hin) as (l0 & Hl0). destruct (Nat.eq_dec k0 k) as [-> | Hne]; [congruence |].
    exists l0. rewrite find_set_other by assumption. exact Hl0.
  - intros q H. rewrite set_file_other; [apply U, (untouched_snoc _ _ _ H) |].
    intros ->. apply (H k), in_or_app. right. left. reflexivity.
  - intros Hno q k0 Hl. apply no_overlap_prefix in Hno. destruct (path_dec q p) as [-> | Hq].
    + apply latest_trunc in Hl as ->. exists l, (Writing p (toml (login_token l)) 0), 0. cbn.
      split; [eapply find_set_same; eassumption |]. split; [assumption |]. split; [apply set_file_same |]. split; [lia | reflexivity].
    + apply latest_snoc in Hl; [| congruence]. destruct (F Hno q k0 Hl) as (l0 & ph0 & n & H1 & H2 & H3 & H4 & H5).
      destruct (Nat.eq_dec k0 k) as [-> | Hne]; [rewrite Hk in H1; injection H1 as <- <-; contradiction |].
      exists l0, ph0, n. cbn. rewrite find_set_other, set_file_other by assumption. auto.
Qed.

Lemma inv_write : forall f s k l p rest n m b, inv f s -> find_login k (st_logins s) = Some (l, Writing p rest n) -> st_files s p = Some b ->
  inv f {| st_files := set_file (st_files s) p (overwrite b n (firstn m rest));
           st_logins := set_phase k (Writing p (skipn m rest) (n + length (firstn m rest))) (st_logins s);
           st_log := st_log s ++ [Wrote k (length (firstn m rest))] |}.
Proof.
  intros f s k l p rest n m b [P E U F] Hk Hb. destruct (P _ _ _ Hk) as (Hp & Hin & -> & Hle).
  set (x := toml (login_token l)) in *.
  assert (skipn m (skipn n x) = skipn (n + length (firstn m (skipn n x))) x) as Hskip.
  { rewrite firstn_length, skipn_length. destruct (Nat.le_gt_cases m (length x - n)) as [Hm | Hm].
    - rewrite Nat.min_l by lia. apply skipn_skipn.
    - rewrite Nat.min_r by lia. rewrite !skipn_all2; [reflexivity | lia | rewrite skipn_length; lia]. }
  assert (n + length (firstn m (skipn n x)) <= length x) as Hle'.
  { rewrite firstn_length, skipn_length. lia. }
  constructor; cbn.
  - intros k0 l0 ph0 H0. destruct (Nat.eq_dec k0 k) as [-> | Hne].
    + erewrite find_set_same in H0 by eassumption. assert (l0 = l) as -> by congruence.
      injection H0 as <-. cbn. split; [assumption |].
      split; [apply in_or_app; left; assumption |]. split; [exact Hskip | exact Hle'].
    + rewrite find_set_other in H0 by assumption. apply phase_ok_snoc, P, H0.
  - intros k0 Hx. apply in_app_or in Hx as [Hx | [Hx | []]]; [| discriminate].
    destruct (E _ Hx) as (l0 & Hl0). destruct (Nat.eq_dec k0 k) as [-> | Hne]; [congruence |].
    exists l0. rewrite find_set_other by assumption. exact Hl0.
  - intros q H. apply untouched_snoc in H. rewrite set_file_other; [apply U, H |].
    intros ->. exact (H _ Hin).
  - intros Hno q k0 Hl. pose proof (no_overlap_prefix _ _ Hno) as Hno'. apply latest_snoc in Hl; [| congruence].
    destruct (F Hno' q k0 Hl) as (l0 & ph0 & n0 & H1 & H2 & H3 & H4 & H5).
    destruct (Nat.eq_dec k0 k) as [-> | Hne].
    + rewrite Hk in H1. injection H1 as <- <-. cbn in H5. subst n0. assert (q = p) as -> by congruence. fold x in H3, H4.
      eexists l, _, (n + length (firstn m (skipn n x))). cbn. split; [eapply find_set_same; eassumption |]. split; [assumption |].
      split; [| split; [exact Hle' | reflexivity]]. rewrite set_file_same. f_equal.
      assert (b = firstn n x) as -> by congruence. rewrite overwrite_end by (rewrite firstn_length; lia). fold x.
      apply firstn_more. exact H4.
    + destruct (path_dec q p) as [-> | Hq].
      * exfalso. destruct Hl as (a & c & Elog & Hc). rewrite Elog in Hin. apply in_app_or in Hin as [Hin | [Hin | Hin]].
        -- apply in_split in Hin as (a1 & a2 & ->).
           apply (Hno a1 k p a2 k0 (c ++ [Wrote k (length (firstn m (skipn n x)))]) (length (firstn m (skipn n x)))).
           ++ rewrite Elog. cbn. rewrite <- !app_assoc. cbn. rewrite <- ?app_assoc. reflexivity.
           ++ congruence.
           ++ apply in_or_app. right. left. reflexivity.
        -- congruence.
        -- exact (Hc k Hin).
      * exists l0, ph0, n0. cbn. rewrite find_set_other, set_file_other by assumption. auto.
Qed.

Lemma inv_step : forall f s e, inv f s -> inv f (step s e).
Proof.
  intros f s e Hi. destruct e as [k l | k ok | k m | k | arg env ok]; cbn [LoginModel.step].
  - destruct (find_login k (st_logins s)) as [x |] eqn:Hk; [exact Hi |]. destruct Hi as [P E U F].
    assert (forall k0 l0 ph0, find_login k0 (st_logins s) = Some (l0, ph0) -> forall y, find_login k0 (st_logins s ++ [y]) = Some (l0, ph0)) as Hf.
    { intros k0 l0 ph0 H [k1 y]. rewrite find_app, H. reflexivity. }
    destruct (config_path conventional (lg_env l)) as [p |] eqn:Hc; constructor; cbn.
    + intros k0 l0 ph0 H. rewrite find_app in H. destruct (find_login k0 (st_logins s)) as [[l1 ph1] |] eqn:H1.
      * apply P. congruence.
      * destruct (Nat.eqb k0 k); [| discriminate]. injection H as <- <-. exact Hc.
    + intros k0 Hin. destruct (E _ Hin) as (l0 & Hl0). eauto.
    + exact U.
    + intros Hno q k0 Hl. destruct (F Hno q k0 Hl) as (l0 & ph0 & n & H1 & H). exists l0, ph0, n. cbn. rewrite (Hf _ _ _ H1). auto.
    + intros k0 l0 ph0 H. rewrite find_app in H. destruct (find_login k0 (st_logins s)) as [[l1 ph1] |] eqn:H1.
      * apply phase_ok_snoc, P. congruence.
      * destruct (Nat.eqb k0 k); [| discriminate]. injection H as <- <-. exact I.
    + intros k0 Hin. apply in_app_or in Hin as [Hin | [Hin | []]]; [| discriminate]. destruct (E _ Hin) as (l0 & Hl0). eauto.
    + intros q H. apply U, (untouched_snoc _ _ _ H).
    + intros Hno q k0 Hl. apply no_overlap_prefix in Hno. apply latest_snoc in Hl; [| congruence].
      destruct (F Hno q k0 Hl) as (l0 & ph0 & n & H1 & H). exists l0, ph0, n. cbn. rewrite (Hf _ _ _ H1). auto.
  - destruct (find_login k (st_logins s)) as [[l [p | p r n | b]] |] eqn:Hk; try exact Hi. destruct ok.
    + apply inv_trunc; assumption.
    + eapply inv_end; [exact Hi | exact Hk | congruence | discriminate].
  - destruct (find_login k (st_logins s)) as [[l [p | p r n | b]] |] eqn:Hk; try exact Hi.
    destruct (st_files s p) as [b |] eqn:Hb; [| exact Hi].
    pose proof (inv_write f s k l p r n m b Hi Hk Hb) as Hw. cbv zeta. destruct (skipn m r) as [| c r'] eqn:Hr; [| exact Hw].
    eapply inv_end; [exact Hw | cbn; eapply find_set_same; exact Hk | congruence |]. intros _. eauto.
  - destruct (find_login k (st_logins s)) as [[l [p | p r n | b]] |] eqn:Hk; try exact Hi.
    eapply inv_end; [exact Hi | exact Hk | congruence | discriminate].
  - destruct Hi as [P E U F]. constructor; cbn.
    + intros k0 l0 ph0 H. apply phase_ok_snoc, P, H.
    + intros k0 Hin. apply in_app_or in Hin as [Hin | [Hin | []]]; [| discriminate]. auto.
    + intros q H. apply U, (untouched_snoc _ _ _ H).
    + intros Hno q k0 Hl. apply no_overlap_prefix in Hno. apply latest_snoc in Hl; [| congruence]. exact (F Hno q k0 Hl).
Qed.

Lemma inv_after : forall f es, inv f (after f es).
Proof.
  intros f es. induction es as [| e es IH] using rev_ind.
  - constructor; cbn; try discriminate; try contradiction; try reflexivity.
    intros _ p k (a & b & E & _). destruct a; discriminate.
  - unfold LoginModel.after, run in *. rewrite fold_left_app. apply inv_step, IH.
Qed.
End Login.

(* Contract *)
Lemma toml_empty : forall toml untoml, good_toml toml untoml -> untoml [] = None.
Proof.
  intros toml untoml [R C]. destruct (untoml []) as [t |] eqn:E; [| reflexivity].
  assert (exists t' : token, t' <> t) as (t' & Hne).
  { exists (0%N :: t). intros H. apply (f_equal (@length _)) in H. cbn in H. lia. }
  pose proof (C t' 0) as H. cbn in H. rewrite E in H. destruct H as [H | H]; [discriminate | congruence].
Qed.

(* Which login a process is *)
Section Given.
Context (toml : token -> text) (untoml : text -> option token) (conventional : path).
Notation step := (LoginModel.step toml untoml conventional).
Notation after := (LoginModel.after toml untoml conventional).

Lemma step_found : forall s e k l ph, find_login k (st_logins s) = Some (l, ph) -> exists ph', find_login k (st_logins (step s e)) = Some (l, ph').
Proof.
  assert (forall k0 ph0 ls k l ph, find_login k ls = Some (l, ph) -> exists ph', find_login k (set_phase k0 ph0 ls) = Some (l, ph')) as Hset.
  { intros k0 ph0 ls k l ph H. destruct (Nat.eq_dec k k0) as [-> | Hne].
    - eexists. eapply find_set_same; eassumption.
    - rewrite find_set_other by assumption. eauto. }
  intros s e k l ph H. destruct e as [k0 l0 | k0 ok | k0 m | k0 | arg env ok]; cbn [LoginModel.step].
  - destruct (find_login k0 (st_logins s)); [eauto |].
    destruct (config_path conventional (lg_env l0)); cbn; rewrite find_app, H; eauto.
  - destruct (find_login k0 (st_logins s)) as [[l1 [p | p r n | b]] |]; eauto. destruct ok; cbn; eauto.
  - destruct (find_login k0 (st_logins s)) as [[l1 [p | p r n | b]] |]; eauto. destruct (st_files s p); [| eauto]. cbv zeta.
    destruct (skipn m r); cbn; [| eauto]. destruct (Hset k0 (Writing p [] (n + length (firstn m r))) _ _ _ _ H) as (ph1 & H1). eauto.
  - destruct (find_login k0 (st_logins s)) as [[l1 [p | p r n | b]] |]; eauto. cbn; eauto.
  - cbn. eauto.
Qed.
Lemma step_not_found : forall s e k, find_login k (st_logins s) = None -> (forall l, e <> Start k l) -> find_login k (st_logins (step s e)) = None.
Proof.
  assert (forall k0 ph0 ls k, find_login k ls = None -> find_login k (set_phase k0 ph0 ls) = None) as Hset.
  { intros k0 ph0 ls k H. destruct (Nat.eq_dec k k0) as [-> | Hne].
    - induction ls as [| [k1 [l1 x1]] ls IH]; cbn in *; [reflexivity |].
      destruct (Nat.eqb k0 k1) eqn:E; [discriminate |]. cbn. rewrite E. auto.
    - now rewrite find_set_other by assumption. }
  intros s e k H He. destruct e as [k0 l0 | k0 ok | k0 m | k0 | arg env ok]; cbn [LoginModel.step].
  - assert (Nat.eqb k k0 = false) as E. { apply Nat.eqb_neq. intros ->. now apply (He l0). }
    destruct (find_login k0 (st_logins s)); [eauto |].
    destruct (config_path conventional (lg_env l0)); cbn; rewrite find_app, H, E; reflexivity.
  - destruct (find_login k0 (st_logins s)) as [[l1 [p | p r n | b]] |]; eauto. destruct ok; cbn; eauto.
  - destruct (find_login k0 (st_logins s)) as [[l1 [p | p r n | b]] |]; eauto. destruct (st_files s p); [| eauto]. cbv zeta.
    destruct (skipn m r); cbn; eauto.
  - destruct (find_login k0 (st_logins s)) as [[l1 [p | p r n | b]] |]; eauto. cbn; eauto.
  - cbn. eauto.
Qed.
Lemma found_run : forall es s k l ph, find_login k (st_logins s) = Some (l, ph) -> exists ph', find_login k (st_logins (run step s es)) = Some (l, ph').
Proof.
  intros es; induction es as [| e es IH]; cbn; intros s k l ph H; [eauto |].
  destruct (step_found s e k l ph H) as (ph' & H'). eapply IH, H'.
Qed.
Lemma not_found_run : forall es s k, find_login k (st_logins s) = None -> (forall l, ~ In (Start k l) es) -> find_login k (st_logins (run step s es)) = None.
Proof.
  intros es; induction es as [| e es IH]; cbn; intros s k H Hn; [assumption |].
  apply IH; [apply step_not_found; [assumption |] |]; intros l; [| intros Hin; apply (Hn l); auto].
  intros ->. apply (Hn l). auto.
Qed.
Lemma given_found : forall f es k l, given es k l -> exists ph, find_login k (st_logins (after f es)) = Some (l, ph).
Proof.
  intros f es k l (a & b & -> & Ha). unfold LoginModel.after, run. rewrite fold_left_app. cbn [fold_left].
  pose proof (not_found_run a (start f) k eq_refl Ha) as H. unfold run in H.
  set (s := fold_left step a (start f)) in *.
  assert (exists ph, find_login k (st_logins (step s (Start k l))) = Some (l, ph)) as (ph & Hph).
  { cbn [LoginModel.step]. rewrite H. destruct (config_path conventional (lg_env l)); cbn; rewrite find_app, H, Nat.eqb_refl; eauto. }
  apply (found_run b _ _ _ _ Hph).
Qed.

(* what is in the log names the path of the process *)
Definition named (s : state) : Prop :=
  forall k p, In (Truncated k p) (st_log s) -> exists l ph, find_login k (st_logins s) = Some (l, ph) /\ config_path conventional (lg_env l) = Some p.
Lemma where_step : forall f s e, inv toml conventional f s -> named s -> named (step s e).
Proof.
  intros f s e Hi H k p Hin.
  assert (In (Truncated k p) (st_log s) \/ exists l, e = Open k true /\ find_login k (st_logins s) = Some (l, Opening p)) as [Hold | (l & -> & Hl)].
  { revert Hin. destruct e as [k0 l0 | k0 ok | k0 m | k0 | arg env ok]; cbn [LoginModel.step].
    - destruct (find_login k0 (st_logins s)); [auto |]. destruct (config_path conventional (lg_env l0)); cbn; [auto |].
      rewrite in_app_iff. intros [Hin | [Hin | []]]; [auto | discriminate].
    - destruct (find_login k0 (st_logins s)) as [[l1 [q | q r n | b]] |] eqn:E; auto. destruct ok; cbn; rewrite in_app_iff;
        intros [Hin | [Hin | []]]; auto; [| discriminate]. injection Hin as -> ->. eauto.
    - destruct (find_login k0 (st_logins s)) as [[l1 [q | q r n | b]] |] eqn:E; auto. destruct (st_files s q); [| auto]. cbv zeta.
      destruct (skipn m r); cbn; rewrite ?in_app_iff; cbn; intuition discriminate.
    - destruct (find_login k0 (st_logins s)) as [[l1 [q | q r n | b]] |] eqn:E; auto. cbn. rewrite in_app_iff; cbn; intuition discriminate.
    - cbn. rewrite in_app_iff; cbn; intuition discriminate. }
  - destruct (H k p Hold) as (l & ph & H1 & H2). destruct (step_found s e k l ph H1) as (ph' & H3). eauto.
  - destruct (step_found s (Open k true) k l _ Hl) as (ph' & H3). exists l, ph'. split; [assumption |]. exact (i_phase _ _ _ _ Hi _ _ _ Hl).
Qed.
Lemma where_after : forall f es, named (after f es).
Proof.
  intros f es. induction es as [| e es IH] using rev_ind.
  - intros k p [].
  - pose proof (inv_after toml untoml conventional f es) as Hi. unfold LoginModel.after, run in *. rewrite fold_left_app.
    apply (where_step f _ e Hi IH).
Qed.
Lemma truncated_where : forall f es k l, given es k l -> forall p, In (Truncated k p) (st_log (after f es)) -> config_path conventional (lg_env l) = Some p.
Proof.
  intros f es k l Hg p Hin. destruct (where_after f es k p Hin) as (l0 & ph0 & H1 & H2).
  destruct (given_found f es k l Hg) as (ph & Hph). congruence.
Qed.
Lemma log_grows : forall es s, exists x, st_log (run step s es) = st_log s ++ x.
Proof.
  assert (forall s e, exists x, st_log (step s e) = st_log s ++ x) as H.
  { assert (forall s : state, exists x, st_log s = st_log s ++ x) as H0 by (intros s; exists []; now rewrite app_nil_r).
    intros s e. destruct e as [k0 l0 | k0 ok | k0 m | k0 | arg env ok]; cbn [LoginModel.step].
    - destruct (find_login k0 (st_logins s)); [auto |]. destruct (config_path conventional (lg_env l0)); cbn; [auto | eauto].
    - destruct (find_login k0 (st_logins s)) as [[l1 [q | q r n | b]] |]; auto. destruct ok; cbn; eauto.
    - destruct (find_login k0 (st_logins s)) as [[l1 [q | q r n | b]] |]; auto. destruct (st_files s q); [| auto]. cbv zeta.
      destruct (skipn m r); cbn; [rewrite <- app_assoc |]; eauto.
    - destruct (find_login k0 (st_logins s)) as [[l1 [q | q r n | b]] |]; auto. cbn. eauto.
    - cbn. eauto. }
  intros es; induction es as [| e es IH]; intros s; cbn.
  - exists []. now rewrite app_nil_r.
  - destruct (IH (step s e)) as (x & Hx). destruct (H s e) as (y & Hy). unfold run in Hx. rewrite Hx, Hy, <- app_assoc. eauto.
Qed.
Lemma ignored_exits : forall f es k l, given es k l -> config_path conventional (lg_env l) = None -> In (Exited k false) (st_log (after f es)).
Proof.
  intros f es k l (a & b & -> & Ha) Hn. unfold LoginModel.after, run. rewrite fold_left_app. cbn [fold_left].
  pose proof (not_found_run a (start f) k eq_refl Ha) as H. unfold run in H.
  set (s := fold_left step a (start f)) in *. destruct (log_grows b (step s (Start k l))) as (x & Hx). unfold run in Hx. rewrite Hx.
  cbn [LoginModel.step]. rewrite H, Hn. cbn [st_log]. rewrite !in_app_iff. left. right. left. reflexivity.
Qed.
End Given.

Lemma check_overlap_ok : forall log, check_overlap log = true -> no_overlap log.
Proof.
  assert (forall k p k' c n, k <> k' -> In (Wrote k n) c -> forall b, writes_after k p (b ++ Truncated k' p :: c) = true) as Hw.
  { intros k p k' c n Hne Hin b. induction b as [| e b IH].
    - cbn. destruct (list_eq_dec Nat.eq_dec p p); [| congruence]. apply Bool.orb_true_intro. left.
      apply andb_true_intro. split; [apply Bool.negb_true_iff, Nat.eqb_neq, Hne |].
      apply existsb_exists. exists (Wrote k n). split; [assumption | apply Nat.eqb_refl].
    - destruct e; cbn; rewrite IH; auto. apply Bool.orb_true_r. }
  intros log H a k p b k' c n -> Hne Hin. induction a as [| e a IH].
  - cbn in H. rewrite (Hw k p k' c n Hne Hin b) in H. discriminate.
  - apply IH. destruct e; cbn in H; auto. apply andb_prop in H. tauto.
Qed.

(* the instance of the contract *)
Lemma ex_string_escape : forall c b, ex_string (ex_escape c ++ b) = option_map (cons c) (ex_string b).
Proof.
  intros c b. unfold ex_escape. destruct ((c =? 34)%N || (c =? 92)%N) eqn:E.
  - cbn. now rewrite N2Nat.id.
  - apply Bool.orb_false_iff in E as [E1 E2]. apply N.eqb_neq in E1, E2.
    assert (N.to_nat c <> 34) as H1 by lia. assert (N.to_nat c <> 92) as H2 by lia.
    rewrite <- (N2Nat.id c) at 2. cbn [app]. set (x := N.to_nat c) in *. clearbody x.
    do 93 (destruct x as [| x]; [try reflexivity; congruence |]). reflexivity.
Qed.

Lemma ex_string_cut : forall t m, ex_string (firstn m (flat_map ex_escape t ++ [34; 10])) = None \/ ex_string (firstn m (flat_map ex_escape t ++ [34; 10])) = Some t.
Proof.
  induction t as [| c t IH]; intros m.
  - destruct m as [| [| [| m]]]; cbn; auto.
  - cbn [flat_map]. rewrite <- app_assoc. destruct (Nat.le_gt_cases (length (ex_escape c)) m) as [H | H].
    + rewrite firstn_app, firstn_all2 by assumption. rewrite ex_string_escape.
      destruct (IH (m - length (ex_escape c))) as [-> | ->]; cbn; auto.
    + rewrite firstn_app. replace (m - length (ex_escape c)) with 0 by lia. rewrite firstn_O, app_nil_r.
      unfold ex_escape in *. destruct ((c =? 34)%N || (c =? 92)%N); cbn in H.
      * destruct m as [| [| m]]; cbn; auto. lia.
      * destruct m; cbn; auto. lia.
Qed.
Lemma ex_good_toml : good_toml ex_toml ex_untoml.
Proof.
  assert (forall b m, length ex_key <= m -> ex_untoml (firstn m (ex_key ++ b)) = ex_string (firstn (m - length ex_key) b)) as H.
  { intros b m Hm. unfold ex_untoml. rewrite (firstn_app m), (firstn_all2 ex_key) by assumption.
    rewrite firstn_app, firstn_all, Nat.sub_diag, firstn_O, app_nil_r. destruct (list_eq_dec _ _ _) as [_ | Hn]; [| congruence].
    rewrite skipn_app, skipn_all, Nat.sub_diag. reflexivity. }
  constructor.
  - intros t. rewrite <- (firstn_all (ex_toml t)). unfold ex_toml at 2. rewrite H by (unfold ex_toml; rewrite app_length; lia).
    unfold ex_toml. rewrite app_length, Nat.add_comm, Nat.add_sub, firstn_all.
    induction t as [| c t IH]; [reflexivity |]. cbn [flat_map]. rewrite <- app_assoc, ex_string_escape, IH. reflexivity.
  - intros t n. destruct (Nat.le_gt_cases (length ex_key) n) as [Hn | Hn].
    + unfold ex_toml. rewrite H by assumption. apply ex_string_cut.
    + left. unfold ex_untoml. destruct (list_eq_dec _ _ _) as [E | _]; [exfalso | reflexivity].
      apply (f_equal (@length _)) in E. rewrite !firstn_length in E. lia.
Qed.

(* trimming *)
Lemma white_spaces : forall c, white c = true <-> In c spaces.
Proof.
  intros c. split.
  - intros H.
    assert ((9 <= c <= 13 \/ c = 32 \/ c = 133 \/ c = 160 \/ c = 5760 \/ 8192 <= c <= 8202 \/ c = 8232 \/ c = 8233 \/ c = 8239 \/ c = 8287 \/ c = 12288)%N) as Hc.
    { unfold white in H. repeat (apply Bool.orb_true_iff in H as [H | H]); try (apply N.eqb_eq in H; lia);
        apply andb_prop in H as [H1 H2]; apply N.leb_le in H1, H2; lia. }
    clear H. unfold spaces. cbn [In]. lia.
  - intros H. revert c H. apply Forall_forall. repeat constructor.
Qed.
Lemma not_white : forall c, white c = false -> ~ In c spaces.
Proof. intros c H Hin. apply white_spaces in Hin. congruence. Qed.
Lemma all_white : forall l, Forall (fun c => white c = true) l -> incl l spaces.
Proof. intros l H c Hin. apply white_spaces. rewrite Forall_forall in H. auto. Qed.
Lemma trim_start_spec : forall l, exists a, l = a ++ trim_start l /\ Forall (fun c => white c = true) a /\ forall c t, trim_start l = c :: t -> white c = false.
Proof.
  induction l as [| c l (a & E & Ha & Hc)]; cbn.
  - exists []. split; [reflexivity |]. split; [constructor | discriminate].
  - destruct (white c) eqn:Ew.
    + exists (c :: a). cbn. rewrite <- E. split; [reflexivity |]. split; [now constructor | assumption].
    + exists []. split; [reflexivity |]. split; [constructor |]. congruence.
Qed.
Lemma trim_trimmed : forall x, trimmed x (trim x).
Proof.
  intros x. unfold trim. destruct (trim_start_spec x) as (a & Ea & Ha & Hca). set (y := trim_start x) in *. clearbody y.
  destruct (trim_start_spec (rev y)) as (b & Eb & Hb & Hcb). set (z := trim_start (rev y)) in *. clearbody z.
  assert (y = rev z ++ rev b) as Ey. { rewrite <- (rev_involutive y), Eb. apply rev_app_distr. }
  split; [| split].
  - exists a, (rev b). split; [congruence |]. split; [now apply all_white | apply all_white; now apply Forall_rev].
  - intros c t E. apply not_white, (Hca c (t ++ rev b)). rewrite Ey, E. reflexivity.
  - intros c t E. apply not_white, (Hcb c (rev t)). rewrite <- (rev_involutive z), E, rev_app_distr. reflexivity.
Qed.
