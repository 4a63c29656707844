From Verif Require Import Base StatusModel FetchModel FetchSpec FetchProofs RunnerModel RunnerSpec.

Definition alive (t : task) : bool := match t with TRecv | TMid | TRefill _ | TRun _ | TPush _ => true | _ => false end.
Definition pmsgs (p : producer) : list msg := match p with PSend ms _ => ms | _ => [] end.
Definition task_reports (t : task) : list aresult := match t with TPush (Results r) => [r] | TReport rs => rs | _ => [] end.

Definition flushed (rs : list rmsg) (buf : list aresult) : Prop := (rs = [] /\ buf = []) \/ exists l, rs = l ++ [ResultsFlush].

Definition producing (p : producer) : bool := match p with PSend _ false | PWait => true | _ => false end.
Definition is_refill (t : task) : bool := match t with TRefill _ => true | _ => false end.

Record Core (s : runner) (xs : list wtest) (mid : bool) (bs : list (list wtest)) : Prop := {
  k_stream : r_chan s ++ pmsgs (r_prod s) = map Item xs ++ (if mid then [ForceFlush] else []) ++ flat_map batch_messages bs;
  k_ne : Forall (fun b => b <> []) bs;
  k_len : length bs <= 1;
  k_mid : mid = false -> xs = [] /\ (r_task s = TRecv \/ r_task s = TPush ResultsFlush);
  k_tmid : r_task s = TMid -> xs <> [] /\ r_processed s = 0 /\ r_eligible s = true;
  k_flush : mid = false -> r_task s = TRecv -> flushed (r_results s) (r_buffer s);
  k_tpf : r_task s = TPush ResultsFlush -> mid = false;
  k_size : mid = true -> r_processed s + length xs = r_size s /\ 1 <= r_size s;
  k_half : mid = true -> r_eligible s = true -> is_refill (r_task s) = false -> r_processed s = 0 \/ r_processed s < r_size s / 2;
  k_el : bs <> [] -> r_eligible s = true -> mid = false;
  k_idle : producing (r_prod s) = false -> bs = [] /\ r_refills s = 0 /\ (r_eligible s = true -> mid = false);
  k_send : producing (r_prod s) = true ->
           (bs <> [] /\ r_refills s = 0) \/
           bs = [] /\ (r_eligible s = true /\ r_refills s = 0 /\ mid = true \/ r_eligible s = false /\ r_refills s = 1);
  k_ref : forall t, r_task s = TRefill t -> r_eligible s = true /\ mid = true /\ bs = [] /\ r_size s / 2 <= r_processed s;
  k_req : mid = true -> r_eligible s = false -> r_size s / 2 <= r_processed s;
  k_last : w_ended (r_world s) = false ->
           match bs with
           | [] => mid = true -> exists l b, w_answers (r_world s) = l ++ [b] /\ length (b_work b) = r_size s
           | b0 :: _ => exists l b, w_answers (r_world s) = l ++ [b] /\ b_work b = b0
           end
}.

Record RInv (ss0 : list (list reply)) (max batch : nat) (s : runner) : Prop := {
  v_hist : exists es, in_order (start ss0 max) es /\ r_world s = run fstep (start ss0 max) es;
  v_sent : concat (r_sent s) = w_results (r_world s);
  v_keys : exists got, handed (r_world s) = got ++ items (r_chan s ++ pmsgs (r_prod s)) /\
             map key got = map rkey (reports s) ++ map key (in_hand s);
  v_open : r_refill_open s = alive (r_task s);
  v_dead : alive (r_task s) = false -> (forall t rem, r_task s <> TFlush t rem) -> r_prod s = PExit /\ r_chan s = [];
  v_nopanic : r_task s <> TPanic;
  v_fetch : r_prod s = PFetch -> w_ended (r_world s) = false;
  v_prod : producing (r_prod s) = true -> w_ended (r_world s) = false;
  v_true : forall ms, r_prod s = PSend ms true -> ms = [] /\ w_ended (r_world s) = true;
  v_exit : r_prod s = PExit -> alive (r_task s) = true \/ r_task s = TDone false -> w_ended (r_world s) = true;
  v_buf : length (r_buffer s) < batch;
  v_done : r_sender_done s = true -> r_results s = [] /\ r_buffer s = [] /\ exists c, r_task s = TDone c;
  v_sizes : Forall (fun b => 1 <= length b <= batch) (r_sent s);
  v_core : alive (r_task s) = true -> exists xs mid bs, Core s xs mid bs
}.

Lemma items_app a b : items (a ++ b) = items a ++ items b.
Proof. apply flat_map_app. Qed.
Lemma results_in_app a b : results_in (a ++ b) = results_in a ++ results_in b.
Proof. apply flat_map_app. Qed.
Lemma items_map ts : items (map Item ts) = ts.
Proof. unfold items. rewrite flat_map_concat_map, map_map, <- flat_map_concat_map. induction ts; simpl; congruence. Qed.
Lemma items_batch ts : items (batch_messages ts) = ts.
Proof.
  unfold batch_messages. destruct ts as [|t ts]; auto. simpl. rewrite items_app. simpl. rewrite app_nil_r. now rewrite items_map.
Qed.


Lemma in_hand_nil s : alive (r_task s) = false -> (forall t rem, r_task s <> TFlush t rem) -> in_hand s = [].
Proof. unfold in_hand. destruct (r_task s); simpl; auto; try discriminate. intros _ K. now destruct (K t remaining). Qed.

Ltac proj := cbn [rinit set_prod set_task push_result set_sender accept_item accept_size refilled begin_flush finish_task
  r_world r_prod r_chan r_refills r_refill_open r_eligible r_size r_processed r_task r_results r_buffer r_sent r_sender_done
  alive producing is_refill pmsgs task_reports reports in_hand].

Lemma rinit_inv ss0 max batch : proper ss0 -> 1 <= max -> 1 <= batch -> RInv ss0 max batch (rinit ss0 max).
Proof.
  intros PR M B. constructor; proj; auto; try discriminate.
  - exists []. split; simpl; auto.
  - exists []. split; reflexivity.
  - intros _. exists [], false, []. constructor; proj; auto; try discriminate; try tauto; try reflexivity.
    left. auto.
Qed.

(* what a fetch gives *)
Lemma fetch_cases ss0 max w : proper ss0 -> 1 <= max -> (exists es, in_order (start ss0 max) es /\ w = run fstep (start ss0 max) es) ->
  w_ended w = false ->
  let w' := fstep w Fetch in
  (exists es, in_order (start ss0 max) es /\ w' = run fstep (start ss0 max) es) /\ w_results w' = w_results w /\
  ((exists b, w_answers w' = w_answers w ++ [b] /\ b_eow b = false /\ b_work b <> [] /\ w_ended w' = false) \/
   (w_answers w' = w_answers w ++ [{| b_work := []; b_eow := true |}] /\ w_ended w' = true) \/
   (w_answers w' = w_answers w /\ w_ended w' = true /\ ~ complete ss0) \/
   (w_answers w' = w_answers w /\ w_ended w' = false)).
Proof.
  intros PR M (es & IO & ->) NE w'. split; [|].
  { exists (es ++ [Fetch]). split; [apply in_order_snoc; simpl; auto|]. unfold w'. rewrite run_app. reflexivity. }
  destruct (reach_inv ss0 max es PR M IO) as (H1 & H2 & O & C & I).
  pose proof (i_cmp _ _ _ _ _ _ _ I) as CP.
  destruct (fetch_inv _ _ _ _ _ _ _ PR I NE) as (f' & r & E1 & E2 & _). unfold w'. rewrite E1.
  set (w := run fstep (start ss0 max) es) in *. clearbody w. destruct E2; cbn [after w_answers w_results w_ended]; split; auto.
  - left. exists b. auto.
  - left. exists b. auto.
  - right; right; left. split; auto.
Qed.

Lemma skipn_app_len {A} (l l' : list A) : skipn (length l) (l ++ l') = l'.
Proof. rewrite skipn_app, skipn_all, Nat.sub_diag. reflexivity. Qed.

Lemma handed_new w w' b : w_answers w' = w_answers w ++ [b] -> handed w' = handed w ++ b_work b.
Proof. unfold handed. intros ->. rewrite flat_map_app. simpl. now rewrite app_nil_r. Qed.
Lemma handed_same w w' : w_answers w' = w_answers w -> handed w' = handed w.
Proof. unfold handed. now intros ->. Qed.

Lemma rx_open_true ss0 max batch s : RInv ss0 max batch s -> r_prod s <> PExit -> rx_open s = true.
Proof.
  intros R NP. unfold rx_open. pose proof (v_dead _ _ _ _ R) as D. destruct (r_task s) eqn:T; auto; exfalso; apply NP.
  - apply D; simpl; auto. discriminate.
  - apply D; simpl; auto. discriminate.
Qed.

Lemma producer_inv ss0 max batch s : proper ss0 -> 1 <= max -> RInv ss0 max batch s -> RInv ss0 max batch (step_producer batch s).
Proof.
  intros PR M R. pose proof (rx_open_true _ _ _ _ R) as RX. unfold step_producer.
  destruct (r_prod s) as [|ms c| |] eqn:P; auto.
  - (* fetch *)
    pose proof (v_fetch _ _ _ _ R P) as NE. rewrite NE.
    destruct (fetch_cases ss0 max (r_world s) PR M (v_hist _ _ _ _ R) NE) as (HI & RS & CS). cbv zeta.
    set (w' := fstep (r_world s) Fetch) in *. clearbody w'.
    assert (ND : alive (r_task s) = false -> (forall t rem, r_task s <> TFlush t rem) -> False).
    { intros A1 A2. destruct (v_dead _ _ _ _ R A1 A2). congruence. }
    destruct R as [R1 R2 (got & R3 & R3') R4 R5 R6 R7 R8 R9 R10 R11 R12 R13 R14]. rewrite P in *. cbn [pmsgs] in *. rewrite app_nil_r in R3.
    destruct CS as [(b & A & E & W & N)|[(A & N)|[(A & N & _)|(A & N)]]]; rewrite A.
    + rewrite skipn_app_len, E. constructor; proj; auto; try discriminate; try congruence; try (intros ? ?; exfalso; apply ND; assumption).
      * exists got. split; auto. rewrite (handed_new _ _ _ A), R3, items_app, items_batch. now rewrite app_assoc.
      * intros AL. destruct (R14 AL) as (xs & mid & bs & K). destruct K as [K1 K2 K3 K4 K5 K6 K7 K8 K9 K10 K11 K12 K13 K14 K15].
        rewrite P in *. destruct (K11 eq_refl) as (-> & K11' & K11''). exists xs, mid, [b_work b].
        constructor; proj; auto; try discriminate.
        -- cbn [pmsgs] in K1. rewrite app_nil_r in K1. rewrite K1. cbn [flat_map]. rewrite !app_nil_r, <- app_assoc. reflexivity.
        -- intros _. left. split; [discriminate|auto].
        -- intros t Ht. destruct (K13 t Ht) as (Q1 & Q2 & _). rewrite (K11'' Q1) in Q2. discriminate.
        -- intros _. eauto.
    + rewrite skipn_app_len. cbn [b_work b_eow batch_messages]. constructor; proj; auto; try discriminate; try congruence; try (intros ? ?; exfalso; apply ND; assumption).
      * exists got. split; auto. rewrite (handed_new _ _ _ A), R3. cbn [b_work]. now rewrite !app_nil_r.
      * intros ms [= <-]. auto.
      * intros AL. destruct (R14 AL) as (xs & mid & bs & K). destruct K as [K1 K2 K3 K4 K5 K6 K7 K8 K9 K10 K11 K12 K13 K14 K15].
        rewrite P in *. exists xs, mid, bs. constructor; proj; auto; try discriminate; congruence.
    + rewrite skipn_all, N. constructor; proj; auto; try discriminate; try congruence; try (intros ? ?; exfalso; apply ND; assumption).
      * exists got. split; auto. rewrite (handed_same _ _ A), R3. now rewrite !app_nil_r.
      * intros AL. destruct (R14 AL) as (xs & mid & bs & K). destruct K as [K1 K2 K3 K4 K5 K6 K7 K8 K9 K10 K11 K12 K13 K14 K15].
        rewrite P in *. exists xs, mid, bs. constructor; proj; auto; try discriminate; congruence.
    + rewrite skipn_all, N. constructor; proj; auto; try discriminate; try congruence; try (intros ? ?; exfalso; apply ND; assumption).
      * exists got. split; auto. rewrite (handed_same _ _ A), R3. now rewrite !app_nil_r.
      * intros AL. destruct (R14 AL) as (xs & mid & bs & K). destruct K as [K1 K2 K3 K4 K5 K6 K7 K8 K9 K10 K11 K12 K13 K14 K15].
        rewrite P in *. exists xs, mid, bs. constructor; proj; auto; try discriminate. intros _. rewrite A. exact (K15 NE).
  - destruct ms as [|m ms].
    + (* everything was sent *)
      assert (ND : alive (r_task s) = false -> (forall t rem, r_task s <> TFlush t rem) -> False).
      { intros A1 A2. destruct (v_dead _ _ _ _ R A1 A2). congruence. }
      destruct R as [R1 R2 (got & R3 & R3') R4 R5 R6 R7 R8 R9 R10 R11 R12 R13 R14]. rewrite P in *. cbn [pmsgs] in *.
      destruct c; constructor; proj; auto; try discriminate; try congruence; try (intros ? ?; exfalso; apply ND; assumption).
      * exists got. auto.
      * intros _ _. exact (proj2 (R9 [] eq_refl)).
      * intros AL. destruct (R14 AL) as (xs & mid & bs & K). destruct K as [K1 K2 K3 K4 K5 K6 K7 K8 K9 K10 K11 K12 K13 K14 K15].
        rewrite P in *. exists xs, mid, bs. constructor; proj; auto; try discriminate.
      * exists got. auto.
      * intros AL. destruct (R14 AL) as (xs & mid & bs & K). destruct K as [K1 K2 K3 K4 K5 K6 K7 K8 K9 K10 K11 K12 K13 K14 K15].
        rewrite P in *. exists xs, mid, bs. constructor; proj; auto; try discriminate.
    + rewrite RX by discriminate. cbn [negb]. destruct (Nat.ltb _ _); auto.
      assert (ND : alive (r_task s) = false -> (forall t rem, r_task s <> TFlush t rem) -> False).
      { intros A1 A2. destruct (v_dead _ _ _ _ R A1 A2). congruence. }
      destruct R as [R1 R2 (got & R3 & R3') R4 R5 R6 R7 R8 R9 R10 R11 R12 R13 R14]. rewrite P in *. cbn [pmsgs] in *.
      constructor; proj; auto; try discriminate; try congruence; try (intros ? ?; exfalso; apply ND; assumption).
      * exists got. split; auto. now rewrite <- app_assoc.
      * intros ms' [= -> ->]. destruct (R9 _ eq_refl). discriminate.
      * intros AL. destruct (R14 AL) as (xs & mid & bs & K). destruct K as [K1 K2 K3 K4 K5 K6 K7 K8 K9 K10 K11 K12 K13 K14 K15].
        rewrite P in *. exists xs, mid, bs. constructor; proj; auto; try discriminate. now rewrite <- app_assoc.
  - assert (ND : alive (r_task s) = false -> (forall t rem, r_task s <> TFlush t rem) -> False).
    { intros A1 A2. destruct (v_dead _ _ _ _ R A1 A2). congruence. }
    pose proof (v_open _ _ _ _ R) as OP.
    destruct R as [R1 R2 (got & R3 & R3') R4 R5 R6 R7 R8 R9 R10 R11 R12 R13 R14]. rewrite P in *. cbn [pmsgs] in *.
    destruct (r_refills s) as [|n] eqn:F.
    + destruct (r_refill_open s) eqn:OPE.
      * constructor; rewrite ?P; auto; [exists got; auto|congruence].
      * constructor; proj; auto; try discriminate; try congruence; try (intros ? ?; exfalso; apply ND; assumption).
        -- exists got. auto.
        -- intros _ [K|K]; [congruence|]. exfalso. apply ND; [congruence|]. rewrite K. discriminate.
    + constructor; proj; auto; try discriminate; try congruence; try (intros ? ?; exfalso; apply ND; assumption).
      * exists got. auto.
      * intros AL. destruct (R14 AL) as (xs & mid & bs & K). destruct K as [K1 K2 K3 K4 K5 K6 K7 K8 K9 K10 K11 K12 K13 K14 K15].
        rewrite P in *. exists xs, mid, bs. constructor; proj; auto; try discriminate.
        intros _. destruct (K12 eq_refl) as [(_ & Q)|(Q0 & [(_ & Q & _)|(Q1 & Q)])]; try congruence. split; auto. split; [congruence|]. congruence.
Qed.

Lemma cons_stream (m : msg) (ch pm : list msg) (xs : list wtest) (mid : bool) (bs : list (list wtest)) : m :: ch ++ pm = map Item xs ++ (if mid then [ForceFlush] else []) ++ flat_map batch_messages bs ->
  Forall (fun b => b <> []) bs -> length bs <= 1 -> (mid = false -> xs = []) ->
  match m with
  | Item t => exists xs', xs = t :: xs' /\ mid = true /\ ch ++ pm = map Item xs' ++ [ForceFlush] ++ flat_map batch_messages bs
  | ForceFlush => xs = [] /\ mid = true /\ ch ++ pm = flat_map batch_messages bs
  | BatchSize n => xs = [] /\ mid = false /\ exists b, bs = [b] /\ b <> [] /\ n = length b /\ ch ++ pm = map Item b ++ [ForceFlush]
  end.
Proof.
  intros E NE LB MX. destruct xs as [|t xs]; cbn [map app] in E.
  - destruct mid; cbn [app] in E.
    + injection E as -> E. auto.
    + destruct bs as [|b [|b' bs]]; cbn [length] in LB; [discriminate| |lia]. inversion NE as [|? ? NB _]; subst.
      cbn [flat_map] in E. rewrite app_nil_r in E. destruct b as [|t b]; [congruence|]. cbn [batch_messages] in E. injection E as -> E.
      split; auto. split; auto. exists (t :: b). auto.
  - destruct mid; [|discriminate (MX eq_refl)]. injection E as -> E. exists xs. auto.
Qed.

Lemma accept_core s t ch xs mid bs : (r_task s = TRecv \/ r_task s = TMid) -> r_chan s = Item t :: ch -> Core s xs mid bs ->
  exists xs', xs = t :: xs' /\ Core (accept_item s t ch) xs' mid bs.
Proof.
  intros T CH K. destruct K as [K1 K2 K3 K4 K5 K6 K7 K8 K9 K10 K11 K12 K13 K14 K15].
  rewrite CH in K1. destruct (cons_stream _ _ _ _ _ _ K1 K2 K3 (fun H => proj1 (K4 H))) as (xs' & -> & -> & E).
  exists xs'. split; auto. destruct (K8 eq_refl) as [S1 S2]. cbn [length] in S1.
  assert (NR : is_refill (r_task s) = false) by (destruct T as [-> | ->]; auto).
  destruct (r_eligible s && Nat.leb (r_size s / 2) (r_processed s + 1)) eqn:SR; constructor; unfold accept_item; proj; rewrite ?SR; auto; try discriminate.
  - intros _. split; lia.
  - intros u _. apply andb_prop in SR as [SR SL]. apply Nat.leb_le in SL. repeat split; auto.
    destruct bs; auto. discriminate (K10 ltac:(discriminate) SR).
  - intros _ Q. specialize (K14 eq_refl Q). lia.
  - intros _. split; lia.
  - intros _ EL _. rewrite EL in SR. cbn [andb] in SR. apply Nat.leb_gt in SR. lia.
  - intros _ Q. specialize (K14 eq_refl Q). lia.
Qed.

Lemma unreported_run ss0 max w got pre u v rest : proper ss0 -> 1 <= max ->
  (exists es, in_order (start ss0 max) es /\ w = run fstep (start ss0 max) es) ->
  handed w = got ++ rest -> map key got = map rkey (w_results w ++ pre) ++ map key (u :: v) ->
  Forall (fun x => wt_run x = wt_run u) v.
Proof.
  intros PR M (es & IO & ->) HW E. destruct (reach_inv ss0 max es PR M IO) as (H1 & H2 & O & C & I).
  set (w := run fstep (start ss0 max) es) in *. clearbody w.
  pose proof (i_old _ _ _ _ _ _ _ I) as OC. pose proof (i_len _ _ _ _ _ _ _ I) as L. pose proof (i_c _ _ _ _ _ _ _ I) as FC.
  assert (F : Forall (fun x => snd x = tr_current (trk w)) (map key (u :: v) ++ map key rest)).
  { assert (EQ : map key O ++ map key C = (map rkey (w_results w) ++ map rkey pre) ++ (map key (u :: v) ++ map key rest)).
    { rewrite <- map_app, <- OC, HW, map_app, E, map_app, <- !app_assoc. reflexivity. }
    assert (LE : length (map key O) <= length (map rkey (w_results w) ++ map rkey pre)) by (rewrite app_length, !map_length; lia).
    set (A := map rkey (w_results w) ++ map rkey pre) in *. set (B := map key (u :: v) ++ map key rest) in *.
    assert (FB : B = skipn (length A - length (map key O)) (map key C)).
    { apply (f_equal (skipn (length A))) in EQ. rewrite skipn_app_len in EQ. rewrite <- EQ, skipn_app, skipn_all2 by lia. reflexivity. }
    rewrite FB. rewrite Forall_forall. intros x Hx. assert (In x (map key C)) as Hx'.
    { rewrite <- (firstn_skipn (length A - length (map key O)) (map key C)). apply in_or_app. auto. }
    apply in_map_iff in Hx' as (y & <- & Hy). rewrite Forall_forall in FC. simpl. auto. }
  apply Forall_app in F as [F _]. inversion F as [|? ? F1 F2]; subst. rewrite Forall_forall in *. intros x Hx.
  specialize (F2 (key x) (in_map _ _ _ Hx)). simpl in *. congruence.
Qed.

Lemma errors_keys k us : map rkey (map (fun u => error_result k 0 (sp_id (wt_spec u))) us) = map (fun u => (id_of u, k)) us.
Proof. rewrite map_map. reflexivity. Qed.
Lemma same_run_keys k us : Forall (fun x => wt_run x = k) us -> map key us = map (fun u => (id_of u, k)) us.
Proof. induction 1 as [|x us E _ IH]; simpl; auto. rewrite IH. unfold key. now rewrite E. Qed.

Lemma accept_inv ss0 max batch s t ch : RInv ss0 max batch s -> (r_task s = TRecv \/ r_task s = TMid) -> r_chan s = Item t :: ch ->
  RInv ss0 max batch (accept_item s t ch).
Proof.
  intros R T CH. assert (AL : alive (r_task s) = true) by (destruct T as [-> | ->]; auto).
  destruct (v_core _ _ _ _ R AL) as (xs & mid & bs & K). destruct (accept_core s t ch xs mid bs T CH K) as (xs' & _ & K'). clear K.
  assert (T' : (r_task (accept_item s t ch) = TRefill t \/ r_task (accept_item s t ch) = TRun t)) by (unfold accept_item; proj; destruct (_ && _); auto).
  assert (AL' : alive (r_task (accept_item s t ch)) = true) by (destruct T' as [-> | ->]; auto).
  assert (RE : reports (accept_item s t ch) = reports s).
  { unfold reports. destruct T' as [-> | ->]; destruct T as [-> | ->]; reflexivity. }
  assert (IH : in_hand (accept_item s t ch) = [t]) by (unfold in_hand; destruct T' as [-> | ->]; reflexivity).
  assert (IH0 : in_hand s = []) by (unfold in_hand; destruct T as [-> | ->]; reflexivity).
  destruct R as [R1 R2 (got & R3 & R3') R4 R5 R6 R7 R8 R9 R10 R11 R12 R13 R14].
  constructor; auto.
  - exists (got ++ [t]). rewrite RE, IH. rewrite IH0, app_nil_r in R3'. split.
    + change (r_world (accept_item s t ch)) with (r_world s). rewrite R3, CH. cbn [accept_item r_chan r_prod]. rewrite <- app_assoc. reflexivity.
    + rewrite map_app, R3'. reflexivity.
  - rewrite AL'. change (r_refill_open (accept_item s t ch)) with (r_refill_open s). congruence.
  - rewrite AL'. discriminate.
  - destruct T' as [-> | ->]; discriminate.
  - intros D. destruct (R12 D) as (_ & _ & c & Q). destruct T; congruence.
  - eauto.
Qed.

Lemma task_inv ss0 max batch s o : proper ss0 -> 1 <= max -> RInv ss0 max batch s -> RInv ss0 max batch (step_task batch s o).
Proof.
  intros PR M R. unfold step_task. destruct (r_task s) as [| |t|t|m|t rem|rs|c|] eqn:T; auto.
  - (* TRecv *)
    destruct (r_chan s) as [|[n|t|] ch] eqn:CH.
    + destruct (is_exited (r_prod s)) eqn:EX; auto. assert (P : r_prod s = PExit) by (destruct (r_prod s); auto; discriminate).
      destruct R as [R1 R2 (got & R3 & R3') R4 R5 R6 R7 R8 R9 R10 R11 R12 R13 R14]. rewrite T in *.
      constructor; proj; auto; try discriminate; try congruence.
      * exists got. split; auto. unfold reports, in_hand in *. rewrite T in R3'. proj. exact R3'.
      * intros D. destruct (R12 D) as (_ & _ & c & Q). congruence.
    + assert (AL : alive (r_task s) = true) by (rewrite T; auto).
      destruct (v_core _ _ _ _ R AL) as (xs & mid & bs & K). destruct K as [K1 K2 K3 K4 K5 K6 K7 K8 K9 K10 K11 K12 K13 K14 K15].
      rewrite CH in K1. destruct (cons_stream _ _ _ _ _ _ K1 K2 K3 (fun H => proj1 (K4 H))) as (-> & -> & b & -> & NB & -> & E).
      destruct R as [R1 R2 (got & R3 & R3') R4 R5 R6 R7 R8 R9 R10 R11 R12 R13 R14]. rewrite T in *.
      assert (PP : producing (r_prod s) = true).
      { destruct (producing (r_prod s)) eqn:Q; auto. destruct (K11 eq_refl) as (Q1 & _). discriminate. }
      constructor; proj; auto; try discriminate; try congruence.
      * exists got. split; [rewrite R3, CH; reflexivity|]. unfold reports, in_hand in *. rewrite T in R3'. proj. exact R3'.
      * intros D. destruct (R12 D) as (_ & _ & c & Q). congruence.
      * intros _. exists b, true, []. constructor; proj; auto; try discriminate; try congruence.
        -- intros _. split; auto. destruct b; [congruence|simpl; lia].
        -- intros _. right. split; auto. left. split; auto. split; auto. destruct (K12 PP) as [(_ & Q)|(Q & _)]; [auto|discriminate].
        -- intros Q _. destruct (K15 Q) as (l & b' & Q1 & <-). eauto.
    + apply accept_inv; auto.
    + assert (AL : alive (r_task s) = true) by (rewrite T; auto).
      destruct (v_core _ _ _ _ R AL) as (xs & mid & bs & K). destruct K as [K1 K2 K3 K4 K5 K6 K7 K8 K9 K10 K11 K12 K13 K14 K15].
      rewrite CH in K1. destruct (cons_stream _ _ _ _ _ _ K1 K2 K3 (fun H => proj1 (K4 H))) as (-> & -> & E).
      destruct R as [R1 R2 (got & R3 & R3') R4 R5 R6 R7 R8 R9 R10 R11 R12 R13 R14]. rewrite T in *.
      constructor; proj; auto; try discriminate; try congruence.
      * exists got. split; [rewrite R3, CH; reflexivity|]. unfold reports, in_hand in *. rewrite T in R3'. proj. exact R3'.
      * intros D. destruct (R12 D) as (_ & _ & c & Q). congruence.
      * intros _. exists [], false, bs. constructor; proj; auto; try discriminate; try congruence.
        -- intros Q. destruct (K11 Q) as (Q1 & Q2 & Q3). auto.
        -- intros Q. destruct (K12 Q) as [Q1|(Q1 & [(Q2 & _)|Q2])]; auto. exfalso.
           destruct (K8 eq_refl) as [S1 S2]. cbn [length] in S1. destruct (K9 eq_refl Q2 eq_refl) as [S3|S3]; [lia|].
           pose proof (Nat.div_le_upper_bound (r_size s) 2 (r_size s) ltac:(lia) ltac:(lia)). lia.
        -- intros Q. specialize (K15 Q). destruct bs; [discriminate|exact K15].
  - (* TMid *)
    assert (AL : alive (r_task s) = true) by (rewrite T; auto).
    destruct (v_core _ _ _ _ R AL) as (xs & mid & bs & K). destruct K as [K1 K2 K3 K4 K5 K6 K7 K8 K9 K10 K11 K12 K13 K14 K15].
    destruct (K5 T) as (NX & _). destruct xs as [|x xs]; [congruence|].
    destruct (r_chan s) as [|m ch] eqn:CH.
    + destruct (is_exited (r_prod s)) eqn:EX; auto. exfalso. assert (P : r_prod s = PExit) by (destruct (r_prod s); auto; discriminate).
      rewrite P in K1. discriminate.
    + cbn [app map] in K1. injection K1 as -> _. apply accept_inv; auto.
  - (* TRefill *)
    assert (AL : alive (r_task s) = true) by (rewrite T; auto).
    destruct (v_core _ _ _ _ R AL) as (xs & mid & bs & K). destruct K as [K1 K2 K3 K4 K5 K6 K7 K8 K9 K10 K11 K12 K13 K14 K15].
    destruct (K13 t T) as (EL & -> & -> & HALF).
    assert (PP : producing (r_prod s) = true).
    { destruct (producing (r_prod s)) eqn:Q; auto. destruct (K11 eq_refl) as (_ & _ & Q1). discriminate (Q1 EL). }
    destruct (is_exited (r_prod s)) eqn:EX; [destruct (r_prod s); discriminate|].
    destruct (Nat.ltb (r_refills s) 1) eqn:RF; auto.
    destruct R as [R1 R2 (got & R3 & R3') R4 R5 R6 R7 R8 R9 R10 R11 R12 R13 R14]. rewrite T in *.
    constructor; proj; auto; try discriminate; try congruence.
    * exists got. split; auto. unfold reports, in_hand in *. rewrite T in R3'. proj. exact R3'.
    * intros D. destruct (R12 D) as (_ & _ & c & Q). congruence.
    * intros _. exists xs, true, []. constructor; proj; auto; try discriminate; try congruence.
      intros _. right. split; auto. right. split; auto. apply Nat.ltb_lt in RF. lia.
  - (* TRun *)
    destruct R as [R1 R2 (got & R3 & R3') R4 R5 R6 R7 R8 R9 R10 R11 R12 R13 R14]. rewrite T in *.
    assert (ND : r_sender_done s = true -> False). { intros D. destruct (R12 D) as (_ & _ & c & Q). congruence. }
    destruct o as [rs|].
    + constructor; proj; auto; try discriminate; try congruence; try (intros D; destruct (ND D)); try (intros _ [Q|Q]; discriminate).
      * exists got. split; auto. unfold reports, in_hand in *. rewrite T in R3'. proj. rewrite R3', !app_nil_r, !map_app, <- !app_assoc. reflexivity.
      * intros _. destruct (R14 eq_refl) as (xs & mid & bs & K). destruct K as [K1 K2 K3 K4 K5 K6 K7 K8 K9 K10 K11 K12 K13 K14 K15]. rewrite T in *.
        assert (mid = true) as -> by (destruct mid; auto; destruct (K4 eq_refl) as (_ & [Q|Q]); discriminate).
        exists xs, true, bs. constructor; proj; auto; try discriminate; try congruence.
    + constructor; proj; auto; try discriminate; try congruence; try (intros D; destruct (ND D)); try (intros _ [Q|Q]; discriminate).
      * exists got. split; auto. unfold reports, in_hand in *. rewrite T in R3'. proj. exact R3'.
      * intros _ Q. now destruct (Q t []).
  - (* TPush *)
    destruct (Nat.ltb _ _) eqn:LT; auto.
    destruct R as [R1 R2 (got & R3 & R3') R4 R5 R6 R7 R8 R9 R10 R11 R12 R13 R14]. rewrite T in *.
    assert (ND : r_sender_done s = true -> False). { intros D. destruct (R12 D) as (_ & _ & c & Q). congruence. }
    constructor; proj; auto; try discriminate; try congruence; try (intros D; destruct (ND D)); try (intros _ [Q|Q]; discriminate).
    * exists got. split; auto. unfold reports, in_hand in *. rewrite T in R3'. proj. rewrite R3', results_in_app.
      destruct m; cbn [results_in flat_map]; rewrite !app_nil_r; reflexivity.
    * intros _. destruct (R14 eq_refl) as (xs & mid & bs & K). destruct K as [K1 K2 K3 K4 K5 K6 K7 K8 K9 K10 K11 K12 K13 K14 K15]. rewrite T in *.
      exists xs, mid, bs. constructor; proj; auto; try discriminate; try congruence.
      -- intros Q. destruct (K4 Q) as (Q1 & _). auto.
      -- intros Q _. destruct (K4 Q) as (_ & [Q1|[= ->]]); [discriminate|]. right. eauto.
  - (* TFlush *)
    destruct (r_chan s) as [|m ch] eqn:CH.
    + destruct (is_exited (r_prod s)) eqn:EX; auto. assert (P : r_prod s = PExit) by (destruct (r_prod s); auto; discriminate).
      destruct R as [R1 R2 (got & R3 & R3') R4 R5 R6 R7 R8 R9 R10 R11 R12 R13 R14]. rewrite T in *.
      assert (ND : r_sender_done s = true -> False). { intros D. destruct (R12 D) as (_ & _ & c & Q). congruence. }
      constructor; proj; auto; try discriminate; try congruence; try (intros D; destruct (ND D)); try (intros _ [Q|Q]; discriminate).
      * exists got. split; [rewrite R3, CH; reflexivity|]. unfold reports, in_hand in *. rewrite T in R3'. proj. rewrite !app_nil_r in *.
        rewrite R3'. rewrite !map_app, <- !app_assoc. do 3 f_equal. rewrite errors_keys. apply same_run_keys. constructor; auto.
        eapply (unreported_run ss0 max (r_world s) got (r_buffer s ++ results_in (r_results s)) t rem); eauto.
        rewrite R3', R2. reflexivity.
    + assert (EQ : RInv ss0 max batch (set_task s (TFlush t (match m with Item u => rem ++ [u] | _ => rem end)) ch)).
      { destruct R as [R1 R2 (got & R3 & R3') R4 R5 R6 R7 R8 R9 R10 R11 R12 R13 R14]. rewrite T in *.
        assert (ND : r_sender_done s = true -> False). { intros D. destruct (R12 D) as (_ & _ & c & Q). congruence. }
        constructor; proj; auto; try discriminate; try congruence; try (intros D; destruct (ND D)); try (intros _ [Q|Q]; discriminate).
        * unfold reports, in_hand in *. rewrite T in R3'. proj. rewrite CH in R3.
          destruct m as [n|u|]; [exists got; auto| |exists got; auto].
          exists (got ++ [u]). rewrite <- app_assoc. split; auto. rewrite map_app, R3', <- app_assoc. f_equal. rewrite <- map_app. reflexivity. }
      destruct m; exact EQ.
  - (* TReport *)
    destruct R as [R1 R2 (got & R3 & R3') R4 R5 R6 R7 R8 R9 R10 R11 R12 R13 R14]. rewrite T in *.
    assert (ND : r_sender_done s = true -> False). { intros D. destruct (R12 D) as (_ & _ & c & Q). congruence. }
    assert (R5' : r_prod s = PExit /\ r_chan s = []) by (apply R5; [reflexivity|discriminate]).
    destruct rs as [|r rs].
    + constructor; proj; auto; try discriminate; try congruence; try (intros D; destruct (ND D)); try (intros _ [Q|Q]; discriminate).
      * exists got. split; auto. unfold reports, in_hand in *. rewrite T in R3'. proj. exact R3'.
    + destruct (Nat.ltb _ _) eqn:LT.
      * constructor; proj; auto; try discriminate; try congruence; try (intros D; destruct (ND D)); try (intros _ [Q|Q]; discriminate).
        -- exists got. split; auto. unfold reports, in_hand in *. rewrite T in R3'. proj. rewrite R3', results_in_app, <- !app_assoc. reflexivity.
      * constructor; rewrite ?T; auto. exists got. auto.
Qed.

Lemma account_hist ss0 max w buf rest : proper ss0 -> 1 <= max ->
  (exists es, in_order (start ss0 max) es /\ w = run fstep (start ss0 max) es) ->
  map key (handed w) = map rkey (w_results w ++ buf) ++ rest ->
  let w' := fstep w (Account buf) in
  (exists es, in_order (start ss0 max) es /\ w' = run fstep (start ss0 max) es) /\ w_answers w' = w_answers w /\
  w_results w' = w_results w ++ buf /\ w_ended w' = w_ended w /\ f_sources (w_fetcher w') = f_sources (w_fetcher w).
Proof.
  intros PR M (es & IO & ->) E w'. split.
  { exists (es ++ [Account buf]). split; [apply in_order_snoc; split; auto; exists rest; exact E|]. unfold w'. rewrite run_app. reflexivity. }
  destruct (reach_inv ss0 max es PR M IO) as (H1 & H2 & O & C & I).
  destruct (account_all_inv ss0 max PR buf _ H1 H2 O C rest I E) as (t & T & _).
  pose proof (i_panic _ _ _ _ _ _ _ I) as NP. subst w'. set (w := run fstep (start ss0 max) es) in *. clearbody w.
  unfold fstep. rewrite NP, T. cbn [w_answers w_results w_ended w_fetcher f_sources]. auto.
Qed.

Definition sender_core (rs : list rmsg) (buf : list aresult) (s : runner) : Prop :=
  flushed (r_results s) (r_buffer s) -> flushed rs buf.

Lemma sender_core_inv s w rs buf sent fin xs mid bs : Core s xs mid bs -> sender_core rs buf s ->
  w_answers w = w_answers (r_world s) -> w_ended w = w_ended (r_world s) -> Core (set_sender s w rs buf sent fin) xs mid bs.
Proof.
  intros K SC WA WE. destruct K as [K1 K2 K3 K4 K5 K6 K7 K8 K9 K10 K11 K12 K13 K14 K15]. constructor; proj; auto. rewrite WA, WE. exact K15.
Qed.

(* the sender moves reports on *)
Lemma sender_move ss0 max batch s rs buf : RInv ss0 max batch s -> r_sender_done s = false ->
  r_buffer s ++ results_in (r_results s) = buf ++ results_in rs -> length buf < batch -> sender_core rs buf s ->
  RInv ss0 max batch (set_sender s (r_world s) rs buf (r_sent s) false).
Proof.
  intros R ND E L SC. destruct R as [R1 R2 (got & R3 & R3') R4 R5 R6 R7 R8 R9 R10 R11 R12 R13 R14].
  constructor; proj; auto; try discriminate.
  - exists got. split; auto. unfold reports, in_hand in *. proj. rewrite R3'. rewrite !map_app, <- !app_assoc.
    apply (f_equal (map rkey)) in E. rewrite !map_app in E. rewrite (app_assoc (map rkey (r_buffer s))), E, <- app_assoc. reflexivity.
  - intros AL. destruct (R14 AL) as (xs & mid & bs & K). exists xs, mid, bs. now apply sender_core_inv.
Qed.

Lemma sender_send ss0 max batch s rs buf fin : proper ss0 -> 1 <= max -> 1 <= batch -> RInv ss0 max batch s -> r_sender_done s = false ->
  r_buffer s ++ results_in (r_results s) = buf ++ results_in rs -> 1 <= length buf <= batch -> sender_core rs [] s ->
  (fin = true -> rs = [] /\ exists c, r_task s = TDone c) ->
  RInv ss0 max batch (send_buffer s rs buf fin).
Proof.
  intros PR M B R ND E L SC FN.
  assert (Q : exists rest, map key (handed (r_world s)) = map rkey (w_results (r_world s) ++ buf) ++ rest).
  { destruct (v_keys _ _ _ _ R) as (got & R3 & R3'). rewrite R3, map_app, R3'. unfold reports. rewrite (v_sent _ _ _ _ R).
    apply (f_equal (map rkey)) in E. rewrite !map_app in *. rewrite <- !app_assoc, (app_assoc (map rkey (r_buffer s))), E. eexists. rewrite <- !app_assoc. reflexivity. }
  destruct Q as [rest Q]. destruct (account_hist ss0 max _ buf rest PR M (v_hist _ _ _ _ R) Q) as (A1 & A2 & A3 & A4 & A5).
  unfold send_buffer. set (w' := fstep (r_world s) (Account buf)) in *. clearbody w'.
  destruct R as [R1 R2 (got & R3 & R3') R4 R5 R6 R7 R8 R9 R10 R11 R12 R13 R14].
  constructor; proj; auto; rewrite ?A4; auto; try discriminate.
  - rewrite concat_app, A3, R2. simpl. now rewrite app_nil_r.
  - exists got. split; [rewrite (handed_same _ _ A2); auto|]. unfold reports, in_hand in *. proj. rewrite R3', concat_app. cbn [concat]. rewrite app_nil_r.
    apply (f_equal (map rkey)) in E. rewrite !map_app in *. rewrite <- !app_assoc, (app_assoc (map rkey (r_buffer s))), E, <- !app_assoc. reflexivity.
  - intros F. destruct (FN F). auto.
  - apply Forall_app. split; auto.
  - intros AL. destruct (R14 AL) as (xs & mid & bs & K). exists xs, mid, bs. now apply sender_core_inv.
Qed.

Lemma sender_inv ss0 max batch s : proper ss0 -> 1 <= max -> 1 <= batch -> RInv ss0 max batch s -> RInv ss0 max batch (step_sender batch s).
Proof.
  intros PR M B R. unfold step_sender. destruct (r_sender_done s) eqn:ND; auto. pose proof (v_buf _ _ _ _ R) as LB.
  assert (FL : forall m rs buf, r_results s = m :: rs -> (m = ResultsFlush -> buf = []) -> sender_core rs buf s).
  { intros m rs buf E F [(Q & _)|(l & Q)]; [congruence|]. rewrite E in Q. destruct l as [|m' l]; injection Q as -> ->.
    - left. auto.
    - right. eauto. }
  destruct (r_results s) as [|[r|] rs] eqn:RS.
  - destruct (r_task s) eqn:T; auto. destruct (r_buffer s) as [|b0 bf] eqn:BF.
    + destruct R as [R1 R2 (got & R3 & R3') R4 R5 R6 R7 R8 R9 R10 R11 R12 R13 R14].
      constructor; proj; rewrite ?T in *; auto; try discriminate.
      * exists got. split; auto. unfold reports, in_hand in *. proj. rewrite R3', BF, RS. reflexivity.
      * intros _. eauto.
    + rewrite <- BF in *. apply sender_send; auto.
      * now rewrite RS.
      * rewrite BF in *. cbn [length] in *. lia.
      * intros _. now left.
      * intros _. eauto.
  - cbv zeta. destruct (Nat.leb _ _) eqn:LE.
    + apply sender_send; auto; try discriminate.
      * rewrite RS. cbn [results_in flat_map]. rewrite <- app_assoc. reflexivity.
      * apply Nat.leb_le in LE. rewrite app_length in *. cbn [length] in *. lia.
      * apply (FL (Results r)); auto.
    + apply sender_move; auto.
      * rewrite RS. cbn [results_in flat_map]. rewrite <- app_assoc. reflexivity.
      * now apply Nat.leb_gt in LE.
      * apply (FL (Results r)); auto. discriminate.
  - destruct (r_buffer s) as [|b0 bf] eqn:BF.
    + apply sender_move; auto.
      * now rewrite RS, BF.
      * apply (FL ResultsFlush); auto.
    + rewrite <- BF in *. apply sender_send; auto; try discriminate.
      * now rewrite RS.
      * rewrite BF in *. cbn [length] in *. lia.
      * apply (FL ResultsFlush); auto.
Qed.

Lemma rstep_inv ss0 max batch s e : proper ss0 -> 1 <= max -> 1 <= batch -> RInv ss0 max batch s -> RInv ss0 max batch (rstep batch s e).
Proof.
  intros PR M B R. destruct e; cbn [rstep]; [now apply producer_inv|now apply task_inv|now apply sender_inv].
Qed.

Lemma reach_rinv ss0 max batch es : proper ss0 -> 1 <= max -> 1 <= batch -> RInv ss0 max batch (run (rstep batch) (rinit ss0 max) es).
Proof.
  intros PR M B. apply run_invariant; [intros s e; now apply rstep_inv|now apply rinit_inv].
Qed.
