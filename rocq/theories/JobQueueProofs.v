(* Lemmas about the job-queue model: the tiling invariant and its consequences. *)
From Verif Require Import Base JobQueueModel.

(* ------------------------------------------------------------------ *)
(* Ranges claimed by requests.                                         *)

Definition rng (len n : nat) (p : pc) : option (nat * nat) :=
  match p with
  | PStart => None
  | PFetched st => Some (Nat.min st len, Nat.min (st + n) len)
  | PWriting s e _ => Some (s, e)
  | PTook s e => Some (s, e)
  | PDone s e _ => Some (s, e)
  | PPanicked => None
  end.

Definition range_of (len : nat) (ths : list thread) (k : nat) : option (nat * nat) :=
  match nth_error ths k with
  | Some t => rng len (th_n t) (th_pc t)
  | None => None
  end.

Fixpoint tiles (R : nat -> option (nat * nat)) (len pos : nat) (log : list nat) (fin : nat) : Prop :=
  match log with
  | [] => pos = fin
  | k :: r => exists s e, R k = Some (s, e) /\ s = pos /\ s <= e /\ e <= len /\ tiles R len e r fin
  end.

Lemma tiles_ext R R' len log : forall pos fin,
  (forall k, In k log -> R k = R' k) -> tiles R len pos log fin -> tiles R' len pos log fin.
Proof.
  induction log as [|k r IH]; simpl; intros pos fin HR HT; auto.
  destruct HT as (s & e & Hk & Hs & Hle & Hlen & Hr).
  exists s, e. rewrite <- HR by auto. repeat split; auto.
Qed.

Lemma tiles_snoc R len log : forall pos fin k e,
  tiles R len pos log fin -> R k = Some (fin, e) -> fin <= e -> e <= len ->
  tiles R len pos (log ++ [k]) e.
Proof.
  induction log as [|j r IH]; simpl; intros pos fin k e HT Hk H1 H2.
  - subst. exists fin, e. repeat split; auto.
  - destruct HT as (s & e' & Hj & Hs & Hle & Hlen & Hr).
    exists s, e'. repeat split; auto. eapply IH; eauto.
Qed.

Lemma tiles_bounds R len log : forall pos fin,
  tiles R len pos log fin -> pos <= fin.
Proof.
  induction log as [|j r IH]; simpl; intros pos fin HT.
  - lia.
  - destruct HT as (s & e & _ & -> & Hle & _ & Hr). apply IH in Hr. lia.
Qed.

Lemma tiles_in R len log : forall pos fin k,
  tiles R len pos log fin -> In k log ->
  exists s e, R k = Some (s, e) /\ pos <= s /\ s <= e /\ e <= fin /\ e <= len.
Proof.
  induction log as [|j r IH]; simpl; intros pos fin k HT HI; [contradiction|].
  destruct HT as (s & e & Hj & -> & Hle & Hlen & Hr).
  pose proof (tiles_bounds _ _ _ _ _ Hr) as HB.
  destruct HI as [->|HI].
  - exists pos, e. repeat split; auto.
  - destruct (IH _ _ _ Hr HI) as (s' & e' & Hk & H1 & H2 & H3 & H4).
    exists s', e'. repeat split; auto; lia.
Qed.

Lemma tiles_disjoint R len log : forall pos fin j k sj ej sk ek,
  tiles R len pos log fin -> NoDup log -> In j log -> In k log -> j <> k ->
  R j = Some (sj, ej) -> R k = Some (sk, ek) -> ej <= sk \/ ek <= sj.
Proof.
  induction log as [|x r IH]; simpl; intros pos fin j k sj ej sk ek HT HN Hj Hk Hne Rj Rk; [contradiction|].
  destruct HT as (s & e & Hx & -> & Hle & Hlen & Hr).
  inversion HN as [|? ? Hnin HN']; subst.
  destruct Hj as [->|Hj], Hk as [->|Hk]; try congruence.
  - left. destruct (tiles_in _ _ _ _ _ _ Hr Hk) as (s' & e' & Rk' & H1 & _).
    rewrite Rk in Rk'; injection Rk' as <- <-. rewrite Hx in Rj; injection Rj as <- <-. lia.
  - right. destruct (tiles_in _ _ _ _ _ _ Hr Hj) as (s' & e' & Rj' & H1 & _).
    rewrite Rj in Rj'; injection Rj' as <- <-. rewrite Hx in Rk; injection Rk as <- <-. lia.
  - exact (IH _ _ _ _ _ _ _ _ Hr HN' Hj Hk Hne Rj Rk).
Qed.

Lemma tiles_cover R len log : forall pos fin i,
  tiles R len pos log fin -> pos <= i < fin ->
  exists k s e, In k log /\ R k = Some (s, e) /\ s <= i < e.
Proof.
  induction log as [|x r IH]; simpl; intros pos fin i HT Hi; [lia|].
  destruct HT as (s & e & Hx & -> & Hle & Hlen & Hr).
  destruct (Nat.ltb_spec i e).
  - exists x, pos, e. repeat split; auto; lia.
  - destruct (IH _ _ i Hr) as (k & s' & e' & HI & HR & Hie); [lia|].
    exists k, s', e'. auto.
Qed.

Lemma tiles_concat {A} (l : list A) R log : forall pos fin,
  tiles R (length l) pos log fin ->
  concat (map (fun k => match R k with Some (s, e) => slice l s e | None => [] end) log)
  = slice l pos fin.
Proof.
  induction log as [|x r IH]; simpl; intros pos fin HT.
  - subst. now rewrite slice_empty.
  - destruct HT as (s & e & Hx & -> & Hle & Hlen & Hr).
    rewrite Hx, (IH _ _ Hr). apply slice_app; auto. eapply tiles_bounds; eauto.
Qed.

(* ------------------------------------------------------------------ *)
(* The group walk.                                                     *)

Section P.
Context {T : Type}.
Implicit Types (c : config T) (q : list (T * group)).

Definition grp q i : option group := option_map snd (nth_error q i).

Definition is_boundary q p : Prop :=
  p = 0 \/ length q <= p \/ grp q (p - 1) <> grp q p.

Lemma walk_ge cur n rest : forall taken, taken <= walk cur taken n rest (T := T).
Proof.
  revert cur; induction rest as [|[x g] r IH]; simpl; intros cur taken; auto.
  destruct (Nat.eqb g cur); [specialize (IH cur (S taken)); lia|].
  destruct (Nat.leb n taken); auto. specialize (IH g (S taken)); lia.
Qed.

Lemma walk_le cur n rest : forall taken, walk cur taken n rest (T := T) <= taken + length rest.
Proof.
  revert cur; induction rest as [|[x g] r IH]; simpl; intros cur taken; [lia|].
  destruct (Nat.eqb g cur); [specialize (IH cur (S taken)); lia|].
  destruct (Nat.leb n taken); [lia|]. specialize (IH g (S taken)); lia.
Qed.

(* Description of where the walk stops, relative to the list it walks on.
   [prev] is the group of the element before rest. *)
Lemma walk_spec n rest : forall cur taken m,
  walk cur taken n rest (T := T) = taken + m ->
  m <= length rest /\
  (m = length rest \/
   (n <= taken + m /\
    grp rest m <> (if Nat.eqb m 0 then Some cur else grp rest (m - 1)))) /\
  (forall j, j < m ->
     grp rest j <> (if Nat.eqb j 0 then Some cur else grp rest (j - 1)) -> taken + j < n).
Proof.
  induction rest as [|[x g] r IH]; simpl; intros cur taken m H.
  - assert (m = 0) by lia; subst. repeat split; auto. intros j Hj; lia.
  - destruct (Nat.eqb_spec g cur) as [->|Hg].
    + destruct m as [|m].
      { pose proof (walk_ge cur n r (S taken)). lia. }
      destruct (IH cur (S taken) m) as (H1 & H2 & H3); [lia|].
      split; [lia|]. split.
      * destruct H2 as [->|[H2 H2']]; [left; reflexivity|right]. split; [lia|].
        simpl. destruct m as [|m]; simpl in *; auto.
        replace (m - 0) with m in * by lia; auto.
      * intros [|j] Hj; simpl; intros Hb.
        -- unfold grp in Hb; simpl in Hb; congruence.
        -- assert (S taken + j < n); [|lia]. apply H3; [lia|].
           destruct j as [|j]; simpl in *; auto. replace (j - 0) with j in * by lia; auto.
    + destruct (Nat.leb_spec n taken) as [Hn|Hn].
      * assert (m = 0) by lia; subst. split; [lia|]. split.
        -- right. split; [lia|]. unfold grp; simpl. congruence.
        -- intros j Hj; lia.
      * destruct m as [|m].
        { pose proof (walk_ge g n r (S taken)). lia. }
        destruct (IH g (S taken) m) as (H1 & H2 & H3); [lia|].
        split; [lia|]. split.
        -- destruct H2 as [->|[H2 H2']]; [left; reflexivity|right]. split; [lia|].
           simpl. destruct m as [|m]; simpl in *; auto.
           replace (m - 0) with m in * by lia; auto.
        -- intros [|j] Hj; simpl; intros Hb; [lia|].
           assert (S taken + j < n); [|lia]. apply H3; [lia|].
           destruct j as [|j]; simpl in *; auto. replace (j - 0) with j in * by lia; auto.
Qed.

Lemma grp_skipn q s i : grp (skipn s q) i = grp q (s + i).
Proof. unfold grp; now rewrite nth_error_skipn. Qed.

Lemma group_update_spec q n start e :
  group_update q n start = Some e ->
  1 <= n ->
  start < e /\ start < length q /\ e <= length q /\ is_boundary q e /\
  (e = length q \/ n <= e - start) /\
  (forall b, start < b < e -> grp q (b - 1) <> grp q b -> b - start < n).
Proof.
  unfold group_update; intros H Hn.
  destruct (nth_error q start) as [[x g]|] eqn:Hq; [|discriminate].
  assert (Hlen : start < length q) by (apply nth_error_Some; congruence).
  injection H as He. set (w := walk g 0 n (skipn start q)) in *.
  assert (Hg0 : grp (skipn start q) 0 = Some g)
    by (rewrite grp_skipn, Nat.add_0_r; unfold grp; now rewrite Hq).
  destruct (walk_spec n (skipn start q) g 0 w) as (H1 & H2 & H3); [reflexivity|].
  rewrite skipn_length in *.
  assert (Hw : 0 < w).
  { destruct w as [|w']; [|lia]. destruct H2 as [H2|[H2 H2']]; [lia|].
    simpl in H2'. congruence. }
  assert (Hadj : forall m, 0 < m -> grp (skipn start q) m <> (if Nat.eqb m 0 then Some g else grp (skipn start q) (m - 1)) <->
                      grp q (start + m) <> grp q (start + m - 1)).
  { intros m Hm. destruct m as [|m]; [lia|]. simpl Nat.eqb; cbv iota.
    rewrite !grp_skipn. replace (start + S m - 1) with (start + (S m - 1)) by lia. tauto. }
  repeat split; try lia.
  - unfold is_boundary. destruct H2 as [H2|[H2 H2']]; [right; left; lia|].
    right; right. apply Hadj in H2'; [|lia]. subst e. congruence.
  - intros b Hb Hbd. assert (0 + (b - start) < n); [|lia].
    apply H3; [lia|]. apply Hadj; [lia|].
    replace (start + (b - start)) with b by lia. congruence.
Qed.

Lemma group_update_none q n start : group_update q n start = None -> length q <= start.
Proof.
  unfold group_update. destruct (nth_error q start) as [[x g]|] eqn:Hq; [discriminate|].
  intros _. now apply nth_error_None.
Qed.

(* ------------------------------------------------------------------ *)
(* Invariant of all reachable states.                                  *)

Definition thread_ok c (t : thread) : Prop :=
  1 <= th_n t /\
  match th_pc t with
  | PStart => True
  | PFetched _ => cf_strategy c = ByTest
  | PWriting s e i => s <= i <= e
  | PTook _ _ | PDone _ _ _ => True
  | PPanicked => False
  end.

(* What a request that knows its bounds satisfies, by strategy. *)
Definition bounds_ok c (n s e : nat) : Prop :=
  match cf_strategy c with
  | ByTest => (e - s = n \/ e = length (cf_queue c)) /\ e - s <= n
  | ByTopLevelGroup =>
      is_boundary (cf_queue c) s /\ is_boundary (cf_queue c) e /\
      (e = length (cf_queue c) \/ n <= e - s) /\
      (forall b, s < b < e -> grp (cf_queue c) (b - 1) <> grp (cf_queue c) b -> b - s < n)
  end.

Definition pc_bounds_ok c (t : thread) : Prop :=
  match rng (length (cf_queue c)) (th_n t) (th_pc t) with
  | Some (s, e) => bounds_ok c (th_n t) s e
  | None => True
  end.

Definition written (p : pc) (i : nat) : Prop :=
  match p with
  | PWriting s _ j => s <= i < j
  | PTook s e | PDone s e _ => s <= i < e
  | _ => False
  end.

(* How far an unfinished claim may have pushed the pointer past the end. *)
Definition pending_n (len : nat) (t : thread) : nat :=
  match th_pc t with PFetched start => Nat.min (th_n t) (start + th_n t - len) | _ => 0 end.

Definition sum_pending (len : nat) (ths : list thread) : nat := list_sum (map (pending_n len) ths).

Record Inv c (st : state) : Prop := {
  inv_tiles : tiles (range_of (length (cf_queue c)) (st_threads st)) (length (cf_queue c)) 0
                    (st_log st) (Nat.min (st_ptr st) (length (cf_queue c)));
  inv_nodup : NoDup (st_log st);
  inv_log : forall k t, nth_error (st_threads st) k = Some t ->
              (In k (st_log st) <-> th_pc t <> PStart);
  inv_log_len : forall k, In k (st_log st) -> k < length (st_threads st);
  inv_threads : forall k t, nth_error (st_threads st) k = Some t -> thread_ok c t;
  inv_bounds : forall k t, nth_error (st_threads st) k = Some t -> pc_bounds_ok c t;
  inv_group : cf_strategy c = ByTopLevelGroup ->
              st_ptr st <= length (cf_queue c) /\ is_boundary (cf_queue c) (st_ptr st);
  inv_owner_len : length (st_owner st) = length (cf_queue c);
  inv_owner : forall i, i < length (cf_queue c) ->
      (exists k t, nth_error (st_threads st) k = Some t /\ written (th_pc t) i /\
                   nth_error (st_owner st) i = Some (th_tag t))
      \/ ((forall k t, nth_error (st_threads st) k = Some t -> ~ written (th_pc t) i)
          /\ nth_error (st_owner st) i = Some TExternalClient);
  inv_done : forall k t s e b, nth_error (st_threads st) k = Some t ->
      th_pc t = PDone s e b ->
      (b = true -> length (cf_queue c) <= st_ptr st) /\
      (b = false -> s < e /\ e < length (cf_queue c));
  inv_took : forall k t s e, nth_error (st_threads st) k = Some t ->
      rng (length (cf_queue c)) (th_n t) (th_pc t) = Some (s, e) ->
      s = e -> length (cf_queue c) <= st_ptr st;
  inv_ptr : st_ptr st <= length (cf_queue c) + sum_pending (length (cf_queue c)) (st_threads st)
}.

Lemma inv_init c : Inv c (init c).
Proof.
  constructor; simpl.
  - reflexivity.
  - constructor.
  - intros [|k] t; discriminate.
  - contradiction.
  - intros [|k] t; discriminate.
  - intros [|k] t; discriminate.
  - intros _. split; [lia|left; reflexivity].
  - apply repeat_length.
  - intros i Hi. right. split.
    + intros [|k] t; discriminate.
    + rewrite nth_error_repeat; auto.
  - intros [|k] t; discriminate.
  - intros [|k] t; discriminate.
  - lia.
Qed.

(* A written index of a request lies inside its range. *)
Lemma written_in_range c t i :
  thread_ok c t -> written (th_pc t) i ->
  exists s e, rng (length (cf_queue c)) (th_n t) (th_pc t) = Some (s, e) /\ s <= i < e.
Proof.
  intros [_ Hok]. destruct (th_pc t) as [|st0|s e j|s e|s e b|]; simpl; intros Hw; try contradiction.
  - exists s, e; split; auto; lia.
  - exists s, e; auto.
  - exists s, e; auto.
Qed.

Lemma sum_pending_snoc len ths t :
  sum_pending len (ths ++ [t]) = sum_pending len ths + pending_n len t.
Proof. unfold sum_pending. rewrite map_app, list_sum_app. simpl. lia. Qed.

Lemma sum_pending_upd len ths k t t' :
  nth_error ths k = Some t ->
  sum_pending len (upd k t' ths) + pending_n len t = sum_pending len ths + pending_n len t'.
Proof.
  unfold sum_pending. revert k; induction ths as [|h r IH]; intros [|k] H; simpl in *; try discriminate.
  - injection H as ->. lia.
  - specialize (IH _ H). lia.
Qed.

Lemma range_of_upd_same len ths k t p' :
  nth_error ths k = Some t ->
  rng len (th_n t) p' = rng len (th_n t) (th_pc t) ->
  forall j, range_of len (upd k {| th_tag := th_tag t; th_n := th_n t; th_pc := p' |} ths) j
            = range_of len ths j.
Proof.
  intros Hk Hr j. unfold range_of. rewrite nth_error_upd.
  destruct (Nat.eqb_spec k j) as [<-|Hne]; auto.
  assert (k < length ths) by (apply nth_error_Some; congruence).
  destruct (Nat.ltb_spec k (length ths)); [|lia]. simpl. rewrite Hk. exact Hr.
Qed.

(* Uniform reasoning about threads after updating request k. *)
Lemma upd_cases ths k (t t' : thread) j u :
  nth_error ths k = Some t -> nth_error (upd k t' ths) j = Some u ->
  (j = k /\ u = t') \/ (j <> k /\ nth_error ths j = Some u).
Proof.
  intros Hk Hj. rewrite nth_error_upd in Hj.
  assert (k < length ths) by (apply nth_error_Some; congruence).
  destruct (Nat.eqb_spec k j) as [<-|Hne].
  - destruct (Nat.ltb_spec k (length ths)); [|lia]. left; split; congruence.
  - right; auto.
Qed.

Lemma upd_same ths k (t t' : thread) :
  nth_error ths k = Some t -> nth_error (upd k t' ths) k = Some t'.
Proof. intros Hk. apply nth_error_upd_eq. apply nth_error_Some; congruence. Qed.

Lemma upd_other ths k (t' : thread) j :
  j <> k -> nth_error (upd k t' ths) j = nth_error ths j.
Proof. intros. apply nth_error_upd_neq; auto. Qed.

Lemma inv_arrive c st who n : Inv c st -> Inv c (step c st (Arrive who n)).
Proof.
  intros HI. simpl. destruct (Nat.eqb_spec n 0) as [|Hn]; auto.
  set (nt := {| th_tag := who; th_n := n; th_pc := PStart |}).
  assert (Hnew : forall k t, nth_error (st_threads st ++ [nt]) k = Some t ->
            (nth_error (st_threads st) k = Some t) \/ (k = length (st_threads st) /\ t = nt)).
  { intros k t. rewrite nth_error_snoc.
    destruct (Nat.ltb_spec k (length (st_threads st))); auto.
    destruct (Nat.eqb_spec k (length (st_threads st))); intros H'; [right|discriminate].
    split; congruence. }
  assert (Hold : forall k t, nth_error (st_threads st) k = Some t ->
            nth_error (st_threads st ++ [nt]) k = Some t).
  { intros k t Hk. rewrite nth_error_snoc.
    assert (k < length (st_threads st)) by (apply nth_error_Some; congruence).
    destruct (Nat.ltb_spec k (length (st_threads st))); [auto|lia]. }
  destruct HI as [HT HN HL HLL HTh HB HG HOL HO HD HTk HP]. constructor; simpl; auto.
  - eapply tiles_ext; [|exact HT]. intros k Hk. unfold range_of.
    pose proof (HLL _ Hk). rewrite nth_error_snoc.
    destruct (Nat.ltb_spec k (length (st_threads st))); [auto|lia].
  - intros k t Hk. destruct (Hnew _ _ Hk) as [Hk'|[-> ->]]; [now apply HL|].
    split; [|simpl; congruence]. intros Hin. apply HLL in Hin. lia.
  - intros k Hk. rewrite app_length; simpl. apply HLL in Hk. lia.
  - intros k t Hk. destruct (Hnew _ _ Hk) as [Hk'|[-> ->]]; [eauto|].
    split; simpl; auto; lia.
  - intros k t Hk. destruct (Hnew _ _ Hk) as [Hk'|[-> ->]]; [eauto|]. exact I.
  - intros i Hi. destruct (HO i Hi) as [(k & t & Hk & Hw & Ho)|[Hn' Ho]].
    + left. exists k, t. auto.
    + right. split; auto. intros k t Hk.
      destruct (Hnew _ _ Hk) as [Hk'|[-> ->]]; [eauto|]. simpl; auto.
  - intros k t s e b Hk Hp. destruct (Hnew _ _ Hk) as [Hk'|[-> ->]]; [eauto|]. discriminate.
  - intros k t s e Hk Hr. destruct (Hnew _ _ Hk) as [Hk'|[-> ->]]; [eauto|]. discriminate.
  - rewrite sum_pending_snoc. lia.
Qed.

(* Steps that keep the range of request k and do not claim. *)
Lemma inv_step_keep c st k t p' ptr' owner' :
  Inv c st ->
  nth_error (st_threads st) k = Some t ->
  th_pc t <> PStart -> p' <> PStart ->
  let t' := {| th_tag := th_tag t; th_n := th_n t; th_pc := p' |} in
  rng (length (cf_queue c)) (th_n t) p' = rng (length (cf_queue c)) (th_n t) (th_pc t) ->
  rng (length (cf_queue c)) (th_n t) p' <> None ->
  thread_ok c t' ->
  Nat.min ptr' (length (cf_queue c)) = Nat.min (st_ptr st) (length (cf_queue c)) ->
  (cf_strategy c = ByTopLevelGroup -> ptr' = st_ptr st) ->
  ptr' + pending_n (length (cf_queue c)) t <= st_ptr st + pending_n (length (cf_queue c)) t' \/ ptr' <= length (cf_queue c) ->
  length owner' = length (st_owner st) ->
  (forall i, i < length (cf_queue c) ->
     (nth_error owner' i = nth_error (st_owner st) i /\ (written p' i <-> written (th_pc t) i))
     \/ (nth_error owner' i = Some (th_tag t) /\ written p' i)) ->
  (forall s e b, p' = PDone s e b ->
      (b = true -> length (cf_queue c) <= ptr') /\
      (b = false -> s < e /\ e < length (cf_queue c))) ->
  Inv c {| st_ptr := ptr'; st_owner := owner';
           st_threads := upd k t' (st_threads st); st_log := st_log st |}.
Proof.
  intros HI Hk Hns Hns' t' Hr Hrn Hok Hmin Hgp Hptr Hol Hw Hd.
  assert (Hlenp : length (cf_queue c) <= st_ptr st -> length (cf_queue c) <= ptr') by lia.
  destruct HI as [HT HN HL HLL HTh HB HG HOL HO HD HTk HP]. constructor; simpl; auto.
  - rewrite Hmin. eapply tiles_ext; [|exact HT]. intros j _.
    symmetry. apply range_of_upd_same; auto.
  - intros j u Hj. destruct (upd_cases _ _ _ _ _ _ Hk Hj) as [[-> ->]|[Hne Hj']]; [|now apply HL].
    simpl. rewrite (HL _ _ Hk). tauto.
  - intros j Hj. rewrite upd_length. auto.
  - intros j u Hj. destruct (upd_cases _ _ _ _ _ _ Hk Hj) as [[-> ->]|[Hne Hj']]; eauto.
  - intros j u Hj. destruct (upd_cases _ _ _ _ _ _ Hk Hj) as [[-> ->]|[Hne Hj']]; eauto.
    unfold pc_bounds_ok; simpl. rewrite Hr. apply (HB _ _ Hk).
  - intros Hs. specialize (Hgp Hs). subst ptr'. auto.
  - congruence.
  - intros i Hi. destruct (Hw i Hi) as [[Hsame Hiff]|[Hnow Hwr]].
    + destruct (HO i Hi) as [(j & u & Hj & Hwj & Ho)|[Hnone Ho]].
      * left. destruct (Nat.eq_dec j k) as [->|Hne].
        -- exists k, t'. rewrite (upd_same _ _ _ _ Hk).
           assert (u = t) by congruence. subst u.
           split; [reflexivity|]. split; [apply Hiff; exact Hwj|].
           rewrite Hsame. exact Ho.
        -- exists j, u. rewrite upd_other; auto. rewrite Hsame. auto.
      * right. split; [|congruence]. intros j u Hj.
        destruct (upd_cases _ _ _ _ _ _ Hk Hj) as [[-> ->]|[Hne Hj']]; eauto.
        simpl. rewrite Hiff. eauto.
    + left. exists k, t'. rewrite (upd_same _ _ _ _ Hk). auto.
  - intros j u s e b Hj Hp.
    destruct (upd_cases _ _ _ _ _ _ Hk Hj) as [[-> ->]|[Hne Hj']]; [eauto|].
    destruct (HD _ _ _ _ _ Hj' Hp) as [H1 H2]. split; auto.
  - intros j u s e Hj Hrj Hse.
    destruct (upd_cases _ _ _ _ _ _ Hk Hj) as [[-> ->]|[Hne Hj']]; [|eauto].
    simpl in Hrj. rewrite Hr in Hrj. eauto.
  - pose proof (sum_pending_upd (length (cf_queue c)) (st_threads st) k t t' Hk). lia.
Qed.

(* The claiming step. *)
Lemma inv_step_claim c st k t p' ptr' s e :
  Inv c st ->
  nth_error (st_threads st) k = Some t ->
  th_pc t = PStart ->
  let len := length (cf_queue c) in
  let t' := {| th_tag := th_tag t; th_n := th_n t; th_pc := p' |} in
  p' <> PStart -> (forall s e b, p' <> PDone s e b) -> (forall i, ~ written p' i) ->
  rng len (th_n t) p' = Some (s, e) ->
  thread_ok c t' ->
  s = Nat.min (st_ptr st) len -> e = Nat.min ptr' len -> s <= e ->
  bounds_ok c (th_n t) s e ->
  (s = e -> len <= ptr') ->
  (cf_strategy c = ByTopLevelGroup -> ptr' <= len /\ is_boundary (cf_queue c) ptr') ->
  st_ptr st <= ptr' ->
  ptr' <= Nat.max len (st_ptr st) + pending_n len t' ->
  Inv c {| st_ptr := ptr'; st_owner := st_owner st;
           st_threads := upd k t' (st_threads st); st_log := st_log st ++ [k] |}.
Proof.
  intros HI Hk Hpc len t' Hns' Hnd Hnw Hr Hok Hs He Hse Hbo Hempty Hg Hmono Hptr.
  destruct HI as [HT HN HL HLL HTh HB HG HOL HO HD HTk HP]. 
  assert (Hnin : ~ In k (st_log st)) by (rewrite (HL _ _ Hk); congruence).
  assert (Hklt : k < length (st_threads st)) by (apply nth_error_Some; congruence).
  constructor; simpl; auto.
  - fold len. rewrite <- He. apply tiles_snoc with (fin := s).
    + rewrite Hs. eapply tiles_ext; [|exact HT]. intros j Hj. unfold range_of.
      rewrite upd_other; auto. intros ->; contradiction.
    + unfold range_of. rewrite (upd_same _ _ _ _ Hk). exact Hr.
    + exact Hse.
    + subst e. apply Nat.le_min_r.
  - apply NoDup_rev in HN. rewrite <- (rev_involutive (st_log st ++ [k])).
    apply NoDup_rev. rewrite rev_app_distr; simpl. constructor; auto.
    rewrite <- in_rev. exact Hnin.
  - intros j u Hj. rewrite in_app_iff; simpl.
    destruct (upd_cases _ _ _ _ _ _ Hk Hj) as [[-> ->]|[Hne Hj']].
    + simpl. split; auto.
    + rewrite (HL _ _ Hj'). split; [intros [H|[H|[]]]; auto; congruence|auto].
  - intros j. rewrite upd_length, in_app_iff; simpl. intros [H|[<-|[]]]; auto.
  - intros j u Hj. destruct (upd_cases _ _ _ _ _ _ Hk Hj) as [[-> ->]|[Hne Hj']]; eauto.
  - intros j u Hj. destruct (upd_cases _ _ _ _ _ _ Hk Hj) as [[-> ->]|[Hne Hj']]; eauto.
    unfold pc_bounds_ok; simpl. fold len. rewrite Hr. exact Hbo.
  - intros i Hi. destruct (HO i Hi) as [(j & u & Hj & Hwj & Ho)|[Hnone Ho]].
    + left. exists j, u. rewrite upd_other; auto. intros ->.
      rewrite Hj in Hk; injection Hk as ->. rewrite Hpc in Hwj. exact Hwj.
    + right. split; auto. intros j u Hj.
      destruct (upd_cases _ _ _ _ _ _ Hk Hj) as [[-> ->]|[Hne Hj']]; eauto.
  - intros j u s0 e0 b Hj Hp.
    destruct (upd_cases _ _ _ _ _ _ Hk Hj) as [[-> ->]|[Hne Hj']].
    + simpl in Hp. exfalso; eapply Hnd; eauto.
    + destruct (HD _ _ _ _ _ Hj' Hp) as [H1 H2]. split; auto. intros Hb; specialize (H1 Hb). lia.
  - intros j u s0 e0 Hj Hrj Hse0.
    destruct (upd_cases _ _ _ _ _ _ Hk Hj) as [[-> ->]|[Hne Hj']].
    + simpl in Hrj. fold len in Hrj. rewrite Hr in Hrj. injection Hrj as <- <-. auto.
    + specialize (HTk _ _ _ _ Hj' Hrj Hse0). lia.
  - pose proof (sum_pending_upd (length (cf_queue c)) (st_threads st) k t t' Hk) as Hsum.
    assert (pending_n len t = 0) by (unfold pending_n; now rewrite Hpc). fold len in HP, Hsum |- *. lia.
Qed.

Lemma enter_slice_ok len s e : s <= e -> e <= len -> enter_slice len s e = PWriting s e s.
Proof.
  intros H1 H2. unfold enter_slice.
  destruct (Nat.leb_spec s e); [|lia]. destruct (Nat.leb_spec e len); [|lia]. reflexivity.
Qed.

Lemma not_written_fresh s e i : ~ written (PWriting s e s) i.
Proof. simpl. lia. Qed.

Lemma inv_step c st ev : Inv c st -> Inv c (step c st ev).
Proof.
  intros HI. destruct ev as [who n|k]; [now apply inv_arrive|].
  simpl. destruct (nth_error (st_threads st) k) as [t|] eqn:Hk; auto.
  pose proof (inv_threads c st HI k t Hk) as [Hn Hok].
  set (len := length (cf_queue c)).
  unfold thread_step. fold len.
  destruct (th_pc t) as [|start|s e i|s e|s e b|] eqn:Hpc;
    unfold claims_now; rewrite Hpc; try contradiction.
  - (* claim *)
    destruct (cf_strategy c) eqn:Hst.
    + apply inv_step_claim with (s := Nat.min (st_ptr st) len) (e := Nat.min (st_ptr st + th_n t) len);
        simpl; auto; fold len; try discriminate; try congruence; try lia.
      * split; simpl; auto.
      * unfold bounds_ok. rewrite Hst. fold len. lia.
      * unfold pending_n; simpl; lia.
    + destruct (inv_group c st HI Hst) as [Hpl Hpb]. fold len in Hpl.
      destruct (group_update (cf_queue c) (th_n t) (st_ptr st)) as [e|] eqn:Hg.
      * destruct (group_update_spec _ _ _ _ Hg Hn) as (H1 & H2 & H3 & H4 & H5 & H6).
        fold len in H2, H3, H5.
        rewrite enter_slice_ok by lia.
        apply inv_step_claim with (s := st_ptr st) (e := e);
          simpl; auto; fold len; try discriminate; try congruence; try lia.
        -- split; simpl; auto; lia.
        -- unfold bounds_ok. rewrite Hst. auto.
      * apply group_update_none in Hg. fold len in Hg.
        assert (Hpe : st_ptr st = len) by lia. rewrite Hpe.
        rewrite enter_slice_ok by lia.
        apply inv_step_claim with (s := len) (e := len);
          simpl; auto; fold len; try discriminate; try congruence; try lia.
        -- split; simpl; auto; lia.
        -- unfold bounds_ok. rewrite Hst. fold len.
           repeat split; auto; try lia; right; left; unfold len; lia.
        -- intros _. split; [lia|]. right; left. fold len. lia.
  - (* after fetch_add *)
    simpl in Hok.
    assert (Hin : In k (st_log st)) by (rewrite (inv_log c st HI k t Hk); congruence).
    destruct (tiles_in _ _ _ _ _ _ (inv_tiles c st HI) Hin) as (s0 & e0 & HR & _ & Hse & Hef & _).
    unfold range_of in HR. rewrite Hk, Hpc in HR. simpl in HR. fold len in HR, Hef.
    injection HR as Hs0 He0.
    destruct (Nat.ltb_spec len start) as [H1|H1];
      [|destruct (Nat.ltb_spec len (start + th_n t)) as [H2|H2]];
      rewrite enter_slice_ok by lia;
      apply inv_step_keep; auto; try rewrite Hpc; simpl; fold len;
        try discriminate; try congruence; try lia;
        try (f_equal; f_equal; lia); try (split; simpl; auto; lia).
    all: try (unfold pending_n; simpl; rewrite Hpc; lia).
    all: try (intros i Hi; left; split; [reflexivity|simpl; lia]).
  - (* writing owners *)
    simpl in Hok. destruct (Nat.ltb_spec i e) as [Hi|Hi].
    + assert (Hin : In k (st_log st)) by (rewrite (inv_log c st HI k t Hk); congruence).
      destruct (tiles_in _ _ _ _ _ _ (inv_tiles c st HI) Hin) as (s0 & e0 & HR & _ & Hse & Hef & Hel).
      unfold range_of in HR. rewrite Hk, Hpc in HR. simpl in HR. injection HR as <- <-.
      apply inv_step_keep; auto; try rewrite Hpc; simpl; fold len;
        try discriminate; try congruence; try lia.
      * split; simpl; auto; lia.
      * unfold pending_n; simpl; rewrite Hpc; lia.
      * apply upd_length.
      * intros j Hj. destruct (Nat.eq_dec i j) as [->|Hne].
        -- right. split; [|lia]. apply nth_error_upd_eq.
           rewrite (inv_owner_len c st HI). exact Hj.
        -- left. rewrite nth_error_upd_neq by auto. split; [reflexivity|]. lia.
    + apply inv_step_keep; auto; try rewrite Hpc; simpl; fold len;
        try discriminate; try congruence; try lia.
      * split; simpl; auto.
      * unfold pending_n; simpl; rewrite Hpc; lia.
      * intros j Hj. left. split; [reflexivity|]. lia.
  - (* is_at_end *)
    apply inv_step_keep; auto; try rewrite Hpc; simpl; fold len;
      try discriminate; try congruence; try lia.
    + split; simpl; auto.
    + unfold pending_n; simpl; rewrite Hpc; lia.
    + intros j Hj. left. split; [reflexivity|]. tauto.
    + intros s' e' b' H'. injection H' as <- <- <-.
      destruct (Nat.leb_spec len (st_ptr st)) as [H|H]; split; auto; try discriminate.
      intros _.
      assert (Hin : In k (st_log st)) by (rewrite (inv_log c st HI k t Hk); congruence).
      destruct (tiles_in _ _ _ _ _ _ (inv_tiles c st HI) Hin) as (s0 & e0 & HR & _ & Hse & Hef & _).
      unfold range_of in HR. rewrite Hk, Hpc in HR. simpl in HR. injection HR as <- <-.
      fold len in Hef. destruct (Nat.eq_dec s e) as [->|]; [|lia].
      assert (len <= st_ptr st); [|lia].
      apply (inv_took c st HI k t e e Hk); auto. rewrite Hpc. reflexivity.
  - (* already done *)
    apply inv_step_keep; auto; try rewrite Hpc; simpl; fold len;
      try discriminate; try congruence; try lia.
    + split; simpl; auto.
    + unfold pending_n; simpl; rewrite Hpc; lia.
    + intros j Hj. left. split; [reflexivity|]. tauto.
    + intros s' e' b' H'. injection H' as <- <- <-.
      destruct (inv_done c st HI k t s e b Hk Hpc) as [H1 H2]. auto.
Qed.

Lemma inv_run c es : Inv c (run (step c) (init c) es).
Proof. apply run_invariant; [apply inv_step|apply inv_init]. Qed.

End P.
