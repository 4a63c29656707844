(* Property theorems about the file-system persisters (C19, C21, C22, C23). *)
From Verif Require Import Base OffloadModel OffloadSpec ResultsFsModel ResultsFsSpec ResultsFsProofs
  ManifestFsModel ManifestFsSpec ManifestFsProofs JsonModel JsonProofs JsonlModel JsonCut.

(* ---- C19 ---- *)

(* Whatever happens to other runs, and whatever dumps, reads, stores to the remote,
   offloads and failed loads happen to this one, a read answers with what could be
   read before followed by the dumped lines, in order, each once; it fails only if
   its own load from the remote does.  Missing: [clean] excludes a restart of the
   process, a partial write and a failed sync after truncation. *)
Theorem C19_reads_return_every_dump_partial noop st r b es l :
  reads noop st r b -> (forall ev, In ev es -> clean noop r ev) ->
  let st' := run (step noop) st es in
  exists os, fs_log st' = fs_log st ++ os /\
    (fs_log (step noop st' (FRead r l)) = fs_log st' ++ [ARead r (b ++ dumped r os)] \/
     (fs_log (step noop st' (FRead r l)) = fs_log st' ++ [AReadFailed r] /\ exists x, l = LoadFail x)).
Proof.
  intros H C st'. apply reads_iff in H. destruct (holds_run noop es st r b H C) as (os & E & H').
  exists os. split; [exact E|]. apply read_answer. exact H'.
Qed.

(* The first access in a process: with a remote object, it is what is read; without
   (or without a remote), it is what the local file has. *)
Theorem C19_first_access noop st r l :
  fs_cache st r = None ->
  (noop = false -> forall b, fs_remote st r = Some b -> l = LoadOk -> reads noop (step noop st (FEnsure r l)) r b) /\
  (noop = true \/ l = LoadFail None \/ (fs_remote st r = None /\ l = LoadOk) ->
   reads noop (step noop st (FEnsure r l)) r (contents (fs_disk st r))).
Proof.
  intros H. split.
  - intros -> b Hb ->. apply reads_iff. left. simpl. rewrite H. unfold load. rewrite Hb. simpl. now rewrite !set_eq.
  - intros D. apply reads_iff. left. simpl. rewrite H. unfold load.
    destruct D as [->|[->|[D ->]]]; rewrite ?D; simpl; rewrite ?set_eq; auto.
    destruct l as [|[x|]]; simpl; [destruct (fs_remote st r); simpl|..]; rewrite ?set_eq; auto.
Qed.

(* An access that has to load the file from the remote and cannot fails, and the next one
   loads again: nothing is written to or read from what the load has left. *)
Theorem C19_failed_load noop st r lft : fs_cache st r = Some FdOffloaded ->
  (forall line w, let st' := step noop st (FDump r line (LoadFail lft) w) in
     fs_log st' = fs_log st ++ [ADumpFailed r] /\ fs_cache st' r = Some FdOffloaded /\ fs_remote st' = fs_remote st) /\
  (let st' := step noop st (FRead r (LoadFail lft)) in
     fs_log st' = fs_log st ++ [AReadFailed r] /\ fs_cache st' r = Some FdOffloaded /\ fs_remote st' = fs_remote st) /\
  (forall s, let st' := step noop st (FDumpRemote r (LoadFail lft) s) in
     fs_log st' = fs_log st ++ [AStoreFailed r] /\ fs_cache st' r = Some FdOffloaded /\ fs_remote st' = fs_remote st).
Proof. intros H. cbn [step]. unfold with_open, load. rewrite H. destruct lft as [b|], noop; repeat split; auto. Qed.

(* A store to the remote is said to have succeeded iff it did: then the remote has what
   the file has, if there is a remote at all. *)
Theorem C19_stored_iff noop st r l s : fs_cache st r <> None ->
  let st' := step noop st (FDumpRemote r l s) in
  (fs_log st' = fs_log st ++ [AStored r] /\ s = StoreOk /\ (noop = false -> fs_remote st' r = Some (contents (fs_disk st' r))) \/
   fs_log st' = fs_log st ++ [AStoreFailed r] /\ ((exists x, s = StoreFail x) \/ (fs_cache st r = Some FdOffloaded /\ (noop = true \/ fs_remote st r = None \/ exists x, l = LoadFail x)))) /\
  (noop = true -> fs_remote st' = fs_remote st).
Proof.
  intros H. cbn [step]. unfold with_open, load. destruct (fs_cache st r) as [c|] eqn:C; [|congruence].
  destruct c, noop, l as [|[lft|]], s as [|[x|]]; try (destruct (fs_remote st r) as [b|] eqn:R); cbn;
    (split; [|first [reflexivity|discriminate]]);
    first [left; split; [reflexivity|]; split; [reflexivity|]; intros N; first [discriminate N|cbn; rewrite ?set_eq; reflexivity]
          |right; split; [reflexivity|]; first [left; eexists; reflexivity|right; split; [reflexivity|]; first [left; reflexivity|right; first [left; reflexivity|right; eexists; reflexivity]]]].
Qed.

(* A process that starts with a load failure on first access forgets the results in
   the remote, and its next store to the remote destroys them. *)
Theorem C19_transient_load_failure_refuted : exists es,
  let st0 := fs_init (fun _ => None) (fun r => if Nat.eqb r 1 then Some [7; 7; newline] else None) in
  reads false (step false st0 (FEnsure 1 LoadOk)) 1 [7; 7; newline] /\
  fs_log (run (step false) st0 es) = [ADumped 1 [8]; AStored 1; ARead 1 [8; newline]] /\
  fs_remote (run (step false) st0 es) 1 = Some [8; newline].
Proof.
  exists [FEnsure 1 (LoadFail None); FDump 1 [8] (LoadFail None) WriteOk; FDumpRemote 1 (LoadFail None) StoreOk; FRead 1 LoadOk].
  vm_compute. auto.
Qed.

(* After a restart, lines dumped since the last store to the remote are overwritten
   by the remote's older copy. *)
Theorem C19_restart_refuted : exists es,
  fs_log (run (step false) (fs_init (fun _ => None) (fun _ => None)) es) =
    [ADumped 1 [7]; AStored 1; ADumped 1 [8]; ARead 1 [7; newline]].
Proof.
  exists [FEnsure 1 LoadOk; FDump 1 [7] LoadOk WriteOk; FDumpRemote 1 LoadOk StoreOk; FDump 1 [8] LoadOk WriteOk;
          FRestart; FEnsure 1 LoadOk; FRead 1 LoadOk].
  vm_compute. auto.
Qed.

(* A write that breaks off leaves a part of its line, to which the next dump appends. *)
Theorem C19_partial_write_refuted : exists es,
  fs_log (run (step false) (fs_init (fun _ => None) (fun _ => None)) es) =
    [ADumpFailed 1; ADumped 1 [8]; ARead 1 [7; 8; newline]].
Proof.
  exists [FEnsure 1 LoadOk; FDump 1 [7; 7] LoadOk (WriteFail 1); FDump 1 [8] LoadOk WriteOk; FRead 1 LoadOk].
  vm_compute. auto.
Qed.

Example C19_reads_return_every_dump_ex : exists st os,
  st = step false (fs_init (fun _ => None) (fun _ => Some [5; newline])) (FEnsure 1 LoadOk) /\
  reads false st 1 [5; newline] /\
  let es := [FDump 1 [7] LoadOk WriteOk; FDump 2 [9] LoadOk WriteOk; FOffload 1 (After 10) 25 (Some 3%Z) OffOk;
             FRead 1 (LoadFail (Some [1])); FDump 1 [8] LoadOk WriteOk] in
  (forall ev, In ev es -> clean false 1 ev) /\
  fs_log (run (step false) st es) = fs_log st ++ os /\ dumped 1 os = [7; newline; 8; newline] /\
  In (AOffloaded 1) os.
Proof.
  eexists _, _. split; [reflexivity|]. split; [vm_compute; reflexivity|]. simpl.
  split; [|split; [vm_compute; reflexivity|]].
  - intros ev [<-|[<-|[<-|[<-|[<-|[]]]]]]; simpl; auto.
  - vm_compute. auto.
Qed.

(* ---- C22 ---- *)

(* Offloading a results file, whatever step fails (but for the last), leaves what
   reads return as it was.  Missing: a failure of the sync after the truncation, and
   offloading without a remote; both are refuted below. *)
Theorem C22_results_offload_partial st r b r' c now accessed o :
  reads false st r b -> o <> OffSecondSyncFail -> reads false (step false st (FOffload r' c now accessed o)) r b.
Proof.
  intros H N. apply reads_iff in H. apply reads_iff.
  destruct (holds_step false st (FOffload r' c now accessed o) r b H) as (os & E & H').
  - destruct o; simpl; auto; congruence.
  - replace b with (b ++ dumped r os); auto.
    assert (D : dumped r os = []); [|now rewrite D, app_nil_r].
    simpl in E. assert (X : exists a, fs_log (step false st (FOffload r' c now accessed o)) = fs_log st ++ [a] /\ (a = AOffloaded r' \/ a = ANotOffloaded r')).
    { simpl. destruct (fs_cache st r') as [[|]|]; simpl; eauto.
      destruct (file_eligible _ _ _ _) as [[|]|]; simpl; eauto. destruct o as [| |[|]| |]; simpl; eauto. }
    simpl in X. destruct X as (a & E' & Ha). rewrite E' in E. apply app_inv_head in E. subst os.
    destruct Ha as [->| ->]; reflexivity.
Qed.

(* The truncation of a results file comes after the remote has stored the same bytes. *)
Theorem C22_results_truncated_after_store st r c now accessed o :
  contents (fs_disk st r) <> [] -> contents (fs_disk (step false st (FOffload r c now accessed o)) r) = [] ->
  fs_remote (step false st (FOffload r c now accessed o)) r = Some (contents (fs_disk st r)).
Proof.
  intros H. simpl. destruct (fs_cache st r) as [[|]|]; simpl; try congruence.
  destruct (file_eligible _ _ _ _) as [[|]|]; simpl; try congruence.
  destruct o as [| |[|]| |]; simpl; rewrite ?set_eq; simpl; try congruence; auto.
Qed.

Theorem C22_results_sync_failure_refuted : exists st r b es,
  reads false st r b /\ b <> [] /\ fs_log (run (step false) st es) = fs_log st ++ [ANotOffloaded r; ARead r []].
Proof.
  exists (run (step false) (fs_init (fun _ => None) (fun _ => None)) [FEnsure 1 LoadOk; FDump 1 [7] LoadOk WriteOk]), 1,
    [7; newline], [FOffload 1 (After 10) 25 (Some 3%Z) OffSecondSyncFail; FRead 1 LoadOk].
  vm_compute. repeat split; congruence.
Qed.

(* Without a remote, offloading loses the results. *)
Theorem C22_results_no_remote_refuted : exists st r b es,
  reads true st r b /\ b <> [] /\ fs_log (run (step true) st es) = fs_log st ++ [AOffloaded r; AReadFailed r].
Proof.
  exists (run (step true) (fs_init (fun _ => None) (fun _ => None)) [FEnsure 1 LoadOk; FDump 1 [7] LoadOk WriteOk]), 1,
    [7; newline], [FOffload 1 (After 10) 25 (Some 3%Z) OffOk; FRead 1 LoadOk].
  vm_compute. repeat split; congruence.
Qed.

Example C22_results_offload_ex : exists st,
  reads false st 1 [7; newline] /\
  fs_log (run (step false) st [FOffload 1 (After 10) 25 (Some 3%Z) OffOk; FRead 1 (LoadFail (Some [7])); FRead 1 LoadOk]) =
  fs_log st ++ [AOffloaded 1; AReadFailed 1; ARead 1 [7; newline]] /\
  fs_disk (step false st (FOffload 1 (After 10) 25 (Some 3%Z) OffOk)) 1 = Some [].
Proof.
  exists (run (step false) (fs_init (fun _ => None) (fun _ => None)) [FEnsure 1 LoadOk; FDump 1 [7] LoadOk WriteOk]).
  vm_compute. auto.
Qed.

(* ---- C21, and C22 for manifests ---- *)

Section Manifests.
Context {V : Type} (ser : V -> bytes) (parse : bytes -> option V) (consumed : bytes -> nat).
Notation mstep := (mstep ser parse consumed false).

(* After a dump that succeeded onto a file that was not longer, every read that is
   answered gives the same manifest; and if no load from the remote broke off half
   way since, every read is answered unless its own load fails, offloaded or not.
   Missing: a longer file left over (refuted below), a remote that is configured. *)
Theorem C21_manifest_round_trip_partial (CO : codec_ok ser parse consumed) st r v w s es :
  length (m_disk st r) <= length (ser v) ->
  m_log (mstep st (MDump r v w s)) = m_log st ++ [MDumped r v] ->
  (forall ev, In ev es -> no_dump r ev) ->
  let st' := run mstep st (MDump r v w s :: es) in
  (exists os, m_log st' = m_log st ++ MDumped r v :: os /\ forall x, In (MRead r x) os -> x = v) /\
  ((forall ev, In ev es -> whole_loads r ev) -> m_log (mstep st' (MLoad r MLoadOk)) = m_log st' ++ [MRead r v]).
Proof.
  intros L H D st'. pose proof (dump_kept ser parse consumed st r v w s L H) as K.
  split.
  - destruct (kept_run ser parse consumed CO es _ r v (kept0_kept _ _ _ _ K) D) as [_ (os & E & R)].
    exists os. split; auto. unfold st'. change (run mstep st (MDump r v w s :: es)) with (run mstep (mstep st (MDump r v w s)) es).
    rewrite E, H, <- app_assoc. reflexivity.
  - intros W. apply kept0_load; auto. unfold st'.
    change (run mstep st (MDump r v w s :: es)) with (run mstep (mstep st (MDump r v w s)) es).
    apply kept0_run; auto.
Qed.

(* Where nothing is offloaded, the local file alone answers, with or without a remote
   and whatever the remote does. *)
Theorem C21_local_manifest_is_read (CO : codec_ok ser parse consumed) noop st r v w s es l :
  length (m_disk st r) <= length (ser v) ->
  m_log (ManifestFsModel.mstep ser parse consumed noop st (MDump r v w s)) = m_log st ++ [MDumped r v] ->
  (forall ev, In ev es -> no_dump r ev /\ forall c now ac o, ev <> MOffload r c now ac o) ->
  let st' := run (ManifestFsModel.mstep ser parse consumed noop) st (MDump r v w s :: es) in
  m_log (ManifestFsModel.mstep ser parse consumed noop st' (MLoad r l)) = m_log st' ++ [MRead r v].
Proof. intros L H D st'. eapply local_read; eauto. Qed.

(* Offloading a manifest the remote has: the remote keeps it. *)
Theorem C22_manifest_offload_partial st r c now accessed o b :
  m_remote st r = Some b -> m_remote (mstep st (MOffload r c now accessed o)) r = Some b.
Proof. intros H. simpl. destruct (file_eligible _ _ _ _) as [[|]|]; auto. destruct o; auto. Qed.
End Manifests.

(* serde_json is such a codec for every type whose values are written as objects (as the
   derived serialisation of ManifestView is), nested less than 128 deep. *)
Theorem C21_json_is_such_a_codec {V} (enc : V -> json) (dec : json -> option V) consumed :
  (forall v, (exists l, enc v = JObj l) /\ json_ok (enc v) /\ nesting (enc v) < 128 /\ dec (enc v) = Some v) ->
  consumed [] = 0 ->
  codec_ok (fun v => write (enc v)) (fun b => match read_json b with Some j => dec j | None => None end) consumed.
Proof.
  intros H C. repeat split; auto; intros v.
  - destruct (H v) as (_ & OK & N & D). now rewrite read_json_write.
  - intros n L. destruct (H v) as (O & OK & _). now rewrite read_json_prefix.
  - intros n L. destruct (H v) as (O & OK & _). now rewrite read_json_suffix.
Qed.

(* So, in the words of C21 alone: a manifest that was dumped is read back, offloaded or
   not, as JSON text in the files. *)
Theorem C21_json_round_trip_partial {V} (enc : V -> json) (dec : json -> option V) st r v w s es :
  (forall v, (exists l, enc v = JObj l) /\ json_ok (enc v) /\ nesting (enc v) < 128 /\ dec (enc v) = Some v) ->
  let step := mstep (fun v => write (enc v)) (fun b => match read_json b with Some j => dec j | None => None end) (@length _) false in
  length (m_disk st r) <= length (write (enc v)) ->
  m_log (step st (MDump r v w s)) = m_log st ++ [MDumped r v] ->
  (forall ev, In ev es -> no_dump r ev) -> (forall ev, In ev es -> whole_loads r ev) ->
  m_log (run step st (MDump r v w s :: es ++ [MLoad r MLoadOk])) = m_log (run step st (MDump r v w s :: es)) ++ [MRead r v].
Proof.
  intros H step L D N W.
  destruct (C21_manifest_round_trip_partial _ _ _ (C21_json_is_such_a_codec enc dec (@length _) H eq_refl) st r v w s es L D N) as [_ K].
  specialize (K W). rewrite app_comm_cons, run_app. exact K.
Qed.

Example C21_json_ex :
  let enc := fun v => JObj [([105; 116; 101; 109; 115], JArr (map JStr v)); ([97], JArr [])] in
  let dec := fun j => match j with
     | JObj [(_, JArr l); _] => all_some (fun j => match j with JStr s => Some s | _ => None end) l | _ => None end in
  (forall v, (exists l, enc v = JObj l) /\ json_ok (enc v) /\ nesting (enc v) < 128 /\ dec (enc v) = Some v) /\
  let step := mstep (fun v => write (enc v)) (fun b => match read_json b with Some j => dec j | None => None end) (@length _) false in
  m_log (run step (minit (fun _ => []) (fun _ => None))
    [MDump 1 [[34; 125]; []] MWriteOk MStoreOk; MOffload 1 (After 10) 25 (Some 3%Z) MOffOk; MLoad 1 MLoadOk]) =
  [MDumped 1 [[34; 125]; []]; MOffloaded 1; MRead 1 [[34; 125]; []]].
Proof.
  split; [|vm_compute; reflexivity]. intros v. split; [eexists; reflexivity|]. split; [|split].
  - simpl. split; [|auto]. induction v; simpl; auto.
  - cbn [nesting fold_right snd]. assert (E : fold_right (fun x m => Nat.max (nesting x) m) 0 (map JStr v) = 0) by (induction v; simpl; auto).
    rewrite E. simpl. lia.
  - induction v as [|x v IH]; auto. cbn [map all_some]. cbn iota beta in IH. now rewrite IH.
Qed.

(* A codec that meets the assumptions: 0, the elements plus one, 0. *)
Definition ex_ser (v : list nat) : bytes := 0 :: map S v ++ [0].
Fixpoint ex_body (b : bytes) : option (list nat) :=
  match b with
  | [] => None
  | [0] => Some []
  | 0 :: _ => None
  | S x :: b' => option_map (cons x) (ex_body b')
  end.
Definition ex_parse (b : bytes) : option (list nat) := match b with 0 :: b' => ex_body b' | _ => None end.

Lemma ex_codec_ok : codec_ok ex_ser ex_parse (@length _).
Proof.
  repeat split.
  - intros v. simpl. induction v as [|x v IH]; simpl; auto. now rewrite IH.
  - intros v [|n] H; [reflexivity|]. simpl. simpl in H. apply Nat.succ_lt_mono in H. revert n H.
    induction v as [|x v IH]; intros [|n] H; simpl in *; auto; [lia|]. rewrite IH; [auto|lia].
  - intros v [|n] H; [lia|]. clear H. simpl. revert n.
    induction v as [|x v IH]; intros [|n]; simpl; auto. now destruct n.
Qed.

Example C21_manifest_round_trip_ex :
  let st := minit (fun _ => []) (fun _ => None) in
  m_log (run (mstep ex_ser ex_parse (@length _) false) st
    [MDump 1 [5; 6] MWriteOk MStoreOk; MLoad 1 MLoadOk; MOffload 1 (After 10) 25 (Some 3%Z) MOffOk;
     MLoad 1 (MLoadFail None); MLoad 1 MLoadOk]) =
  [MDumped 1 [5; 6]; MRead 1 [5; 6]; MOffloaded 1; MReadFailed 1; MRead 1 [5; 6]].
Proof. vm_compute. reflexivity. Qed.

(* A manifest dumped onto a longer file, with success, can no longer be read. *)
Theorem C21_longer_file_refuted : exists st r v,
  m_log (mstep ex_ser ex_parse (@length _) false st (MDump r v MWriteOk MStoreOk)) = m_log st ++ [MDumped r v] /\
  forall l, m_log (run (mstep ex_ser ex_parse (@length _) false) st [MDump r v MWriteOk MStoreOk; MLoad r l]) =
    m_log st ++ [MDumped r v; MReadFailed r].
Proof.
  exists (run (mstep ex_ser ex_parse (@length _) false) (minit (fun _ => []) (fun _ => None)) [MDump 1 [5; 6] MWriteOk MStoreOk]), 1, [5].
  split; [vm_compute; reflexivity|]. intros [|[n|]]; vm_compute; reflexivity.
Qed.

(* A load that broke off makes the next read fail even if the remote works again:
   the second parse starts where the first stopped. *)
Theorem C21_partial_load_refuted : exists st r v es,
  m_log (run (mstep ex_ser ex_parse (@length _) false) st es) =
    m_log st ++ [MDumped r v; MOffloaded r; MReadFailed r; MReadFailed r] /\ In (MLoad r MLoadOk) es.
Proof.
  exists (minit (fun _ => []) (fun _ => None)), 1, [5],
    [MDump 1 [5] MWriteOk MStoreOk; MOffload 1 (After 10) 25 (Some 3%Z) MOffOk; MLoad 1 (MLoadFail (Some 1)); MLoad 1 MLoadOk].
  vm_compute. auto 10.
Qed.

(* A manifest whose store to the remote failed is truncated by the offload all the
   same: no copy is left.  (Also without a remote, where the dump succeeds.) *)
Theorem C22_manifest_offload_refuted :
  (exists es r v, let st := run (mstep ex_ser ex_parse (@length _) false) (minit (fun _ => []) (fun _ => None)) es in
     m_log st = [MDumpFailed r; MRead r v; MOffloaded r] /\ m_disk st r = [] /\ m_remote st r = None) /\
  (exists es r v, let st := run (mstep ex_ser ex_parse (@length _) true) (minit (fun _ => []) (fun _ => None)) es in
     m_log st = [MDumped r v; MRead r v; MOffloaded r; MReadFailed r]).
Proof.
  split.
  - exists [MDump 1 [5] MWriteOk MStoreFail; MLoad 1 MLoadOk; MOffload 1 (After 10) 25 (Some 3%Z) MOffOk], 1, [5].
    vm_compute. auto.
  - exists [MDump 1 [5] MWriteOk MStoreOk; MLoad 1 MLoadOk; MOffload 1 (After 10) 25 (Some 3%Z) MOffOk; MLoad 1 MLoadOk], 1, [5].
    vm_compute. auto.
Qed.

(* ---- C23 ---- *)

(* A file is eligible just when it is non-empty, offloading is configured, and it
   was unused for the configured time. *)
Theorem C23_eligible_iff c now size accessed :
  file_eligible c now size accessed = Some true <-> size > 0 /\ unused_for c now accessed.
Proof.
  unfold file_eligible, unused_for, duration_since, should_offload.
  destruct (Nat.ltb_spec 0 size) as [Hs|Hs]; [|split; [discriminate|intros [? _]; lia]].
  destruct accessed as [t|].
  2:{ split; [discriminate|]. intros [_ (d & t & _ & ? & _)]. discriminate. }
  destruct (Z.ltb_spec now t) as [H|H].
  - split; [discriminate|]. intros [_ (d & t' & _ & [= <-] & ? & _)]. lia.
  - destruct (Z.leb_spec t now) as [_|?]; [|lia]. destruct c as [|d].
    + split; [discriminate|]. intros [_ (d & t' & ? & _)]. discriminate.
    + split.
      * intros [= E]. apply Z.leb_le in E. split; auto. exists d, t. repeat split; auto; lia.
      * intros [_ (d' & t' & [= <-] & [= <-] & _ & E)]. f_equal. apply Z.leb_le. lia.
Qed.

(* In every history of either persister, an offload that changes the local file or
   reports success was of such a file, judged by its size at that moment. *)
Theorem C23_offloads_only_eligible_results noop st r c now accessed o :
  fs_disk (step noop st (FOffload r c now accessed o)) r <> fs_disk st r \/
  fs_log (step noop st (FOffload r c now accessed o)) = fs_log st ++ [AOffloaded r] ->
  length (contents (fs_disk st r)) > 0 /\ unused_for c now accessed.
Proof.
  intros H. apply C23_eligible_iff. simpl in H.
  destruct (file_eligible c now (length (contents (fs_disk st r))) accessed) as [[|]|]; auto;
    destruct (fs_cache st r) as [[|]|]; simpl in H; destruct H as [H|H]; try congruence; apply app_inv_head in H; discriminate.
Qed.

Theorem C23_offloads_only_eligible_manifests {V} ser (parse : bytes -> option V) consumed noop st r c now accessed o :
  m_disk (mstep ser parse consumed noop st (MOffload r c now accessed o)) r <> m_disk st r \/
  m_log (mstep ser parse consumed noop st (MOffload r c now accessed o)) = m_log st ++ [MOffloaded r] ->
  length (m_disk st r) > 0 /\ unused_for c now accessed.
Proof.
  intros H. apply C23_eligible_iff. simpl in H.
  destruct (file_eligible c now (length (m_disk st r)) accessed) as [[|]|]; auto;
    simpl in H; destruct H as [H|H]; try congruence; apply app_inv_head in H; discriminate.
Qed.

(* Nothing is offloaded with the never configuration, nor when the clock is behind
   the access time. *)
Theorem C23_never_and_skew c now size accessed :
  c = Never \/ (exists t, accessed = Some t /\ (now < t)%Z) -> file_eligible c now size accessed <> Some true.
Proof.
  intros H E. apply C23_eligible_iff in E as [_ (d & t & -> & -> & ? & _)].
  destruct H as [?|(t' & [= ->] & ?)]; [discriminate|lia].
Qed.

(* Judging a file fails - which ends the whole job - only when the file system keeps no access times; a clock that is
   behind the access time is no failure. *)
Theorem C23_fails_iff c now size accessed :
  file_eligible c now size accessed = None <-> size > 0 /\ accessed = None.
Proof.
  unfold file_eligible, duration_since. destruct (Nat.ltb_spec 0 size) as [Hs|Hs]; [|split; [discriminate|intros [? _]; lia]].
  destruct accessed as [t|]; [|split; auto]. destruct (Z.ltb_spec now t); [split; [discriminate|intros [_ ?]; discriminate]|].
  destruct (Z.leb_spec t now); [|lia]. split; [discriminate|intros [_ ?]; discriminate].
Qed.

Example C23_ex : file_eligible (After 10) 13 1 (Some 3%Z) = Some true /\ file_eligible (After 10) 12 1 (Some 3%Z) = Some false /\
  file_eligible (After 10) 13 0 (Some 3%Z) = Some false /\ unused_for (After 10) 13 (Some 3%Z).
Proof. vm_compute. repeat split; try reflexivity. exists 10%Z, 3%Z. repeat split; discriminate. Qed.

Print Assumptions C19_reads_return_every_dump_partial.
Print Assumptions C19_first_access.
Print Assumptions C19_failed_load.
Print Assumptions C19_stored_iff.
Print Assumptions C19_transient_load_failure_refuted.
Print Assumptions C19_restart_refuted.
Print Assumptions C19_partial_write_refuted.
Print Assumptions C22_results_offload_partial.
Print Assumptions C22_results_truncated_after_store.
Print Assumptions C22_results_sync_failure_refuted.
Print Assumptions C22_results_no_remote_refuted.
Print Assumptions C21_manifest_round_trip_partial.
Print Assumptions C21_local_manifest_is_read.
Print Assumptions C21_json_is_such_a_codec.
Print Assumptions C21_json_round_trip_partial.
Print Assumptions C22_manifest_offload_partial.
Print Assumptions C21_longer_file_refuted.
Print Assumptions C21_partial_load_refuted.
Print Assumptions C22_manifest_offload_refuted.
Print Assumptions C23_eligible_iff.
Print Assumptions C23_offloads_only_eligible_results.
Print Assumptions C23_offloads_only_eligible_manifests.
Print Assumptions C23_never_and_skew.
Print Assumptions C23_fails_iff.
