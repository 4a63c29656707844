(* C52: the captured output of a native runner is complete. *)
From Verif Require Import Base CaptureModel CaptureSpec CaptureProofs.

Section C52.
Variables (header : list byte) (piped is_retry : bool) (es : list cevent).
Let p := run cstep (new_pipes header piped is_retry) es.

(* At every moment, of each stream: what the parent accepted starts the header and
   the child's output, in order and without gaps; and the captured bytes (handed
   over by the drains, then still held) are exactly what the parent accepted,
   except that a write in progress may not have reached the side channel yet. *)
Theorem C52_exactly_once_in_order w :
  let k := which w p in
  prefix (k_parent k) (expected k) /\ prefix (captured k) (k_parent k) /\
  (~ in_write k -> captured k = k_parent k).
Proof.
  destruct (kinv_which w p (cinv_run header piped is_retry es)) as (A & B & _). fold p in A, B |- *.
  set (k := which w p) in *. clearbody k.
  split; [|split].
  - destruct (k_pc k) as [t h|b c t h|[]].
    + exists t. apply B.
    + exists t. apply B.
    + exists []. now rewrite app_nil_r.
    + exact B.
  - eexists. exact A.
  - intros N. rewrite A. destruct (k_pc k) as [t h|b c t h|ok] eqn:E; simpl; try now rewrite app_nil_r.
    exfalso. apply N. red. rewrite E. eauto.
Qed.

(* When the copying of a stream has ended well, nothing is missing. *)
Theorem C52_complete_at_the_end w :
  let k := which w p in copied_all k -> k_parent k = expected k /\ captured k = expected k.
Proof.
  intros k E. destruct (kinv_which w p (cinv_run header piped is_retry es)) as (A & B & _). fold p in A, B.
  fold k in A, B. unfold copied_all in E. rewrite E in *. simpl in *. rewrite app_nil_r in A. split; congruence.
Qed.

(* finish hands over the rest: with the drains before it, it makes up everything
   that was captured, and if the pipes were not closed before, everything the
   child wrote.  The combined output is an interleaving of the two streams. *)
Theorem C52_finish_returns_the_rest out err comb :
  p_final p = Some (FOutput out err comb) ->
  captured (p_out p) = drained (k_log (p_out p)) ++ out /\
  captured (p_err p) = drained (k_log (p_err p)) ++ err /\
  interleaving (captured (p_out p)) (captured (p_err p)) comb /\
  (~ In CClose es -> captured (p_out p) = expected (p_out p) /\ captured (p_err p) = expected (p_err p)).
Proof.
  intros F. pose proof (finv_run header piped is_retry es) as H. fold p in H. unfold finv in H. rewrite F in H.
  destruct H as (((E1 & E2) & -> & -> & -> & C1 & C2) & _).
  pose proof (cinv_run header piped is_retry es) as C. fold p in C.
  destruct C as ((A1 & B1 & _) & (A2 & B2 & _) & o & e & I & P1 & P2).
  apply ended_pc in E1 as (k1 & E1). apply ended_pc in E2 as (k2 & E2). rewrite E1, E2 in *. simpl in *.
  rewrite app_nil_r in *. split; [reflexivity|]. split; [reflexivity|]. split.
  - rewrite <- A1, <- A2, P1, P2. exact I.
  - intros N. pose proof (never_closed header piped is_retry es N) as Ab. fold p in Ab.
    unfold copied_all in *. specialize (C1 (Ab false)). specialize (C2 (Ab true)). rewrite E1 in C1. rewrite E2 in C2.
    inversion C1. inversion C2. subst. split; congruence.
Qed.

(* Only the standard output of a retry has a header, and only the given one: what the
   other streams carry is the child's output alone. *)
Theorem C52_header_only_for_retries w :
  expected (which w p) = (if is_retry && negb w then header else []) ++ k_child (which w p).
Proof.
  unfold expected. f_equal. unfold p. clear p.
  assert (H : forall w, k_header (which w (run cstep (new_pipes header piped is_retry) es)) = if is_retry && negb w then header else []).
  { apply (run_invariant cstep (fun p => forall w, k_header (which w p) = if is_retry && negb w then header else [])).
    - intros q ev H v. rewrite <- (H v). clear H. destruct ev as [u a|u|u c|u o|u|u| |u|]; simpl; try destruct u; destruct v; simpl;
      repeat match goal with |- context [match ?x with _ => _ end] => destruct x; simpl end; reflexivity.
    - intros []; simpl; now destruct is_retry. }
  apply H.
Qed.

(* A peek removes nothing: the next answer starts with what it showed. *)
Theorem C52_peek_removes_nothing w l1 b a l2 :
  k_log (which w p) = l1 ++ CPeeked b :: a :: l2 -> prefix b (bytes_of a).
Proof.
  destruct (kinv_which w p (cinv_run header piped is_retry es)) as (_ & _ & L & _). apply L.
Qed.

(* If the pipes are never closed, finish does not panic ... *)
Theorem C52_finish_does_not_panic_partial : ~ In CClose es -> p_final p <> Some FPanic.
Proof.
  intros N F. pose proof (finv_run header piped is_retry es) as H. fold p in H. unfold finv in H. rewrite F in H.
  pose proof (never_closed header piped is_retry es N false) as Ab. fold p in Ab. simpl in Ab. destruct H. congruence.
Qed.
End C52.

(* ... but after close (a test timed out and the native runner was killed) it
   panics when it comes before the runtime has dropped the aborted task: closing
   replaces the handles of the tasks that still share the side channels. *)
Theorem C52_finish_after_close_refuted : exists es,
  p_final (run cstep (new_pipes [] true false) es) = Some FPanic.
Proof. exists [CClose; CFinish]. reflexivity. Qed.

(* A retry's output: header [7;7] in two short writes, then output on both
   streams with short writes and a drain in between. *)
Definition ex_capture : list cevent :=
  [CWriteStep false (WWrote 1); CPushStep false; CPushStep false;
   CWriteStep false WPending; CWriteStep false (WWrote 1); CPushStep false; CPushStep false;
   CWriteStep false WPending; CWriteStep true WPending;
   CRead false [1;2;3]; CRead true [50]; CWriteStep false (WWrote 2); CPushStep false;
   CWriteStep true (WWrote 1); CPushStep true; CPushStep true; CPeek false; CDrain false;
   CPushStep false; CRead false [4]; CWriteStep false (WWrote 2); CPushStep false; CPushStep false;
   CEof true true; CEof false true; CFinish].
Example ex_c52 : let p := run cstep (new_pipes [7;7] true true) ex_capture in
  p_final p = Some (FOutput [3;4] [50] [7;7;50;1;2;3;4]) /\
  k_log (p_out p) = [CPeeked [7;7;1;2]; CDrained [7;7;1;2]] /\
  expected (p_out p) = [7;7;1;2;3;4] /\ ~ In CClose ex_capture /\ copied_all (p_out p).
Proof.
  vm_compute. repeat split; auto. intros H. repeat (destruct H as [H|H]; [discriminate|]). exact H.
Qed.
(* closed and finished in good order *)
Example ex_c52_close : p_final (run cstep (new_pipes [] false false)
  [CWriteStep false WPending; CRead false [1]; CWriteStep false WPending; CPushStep false; CPushStep false;
   CRead false [2]; CClose; CDropTask false; CDropTask true; CFinish]) = Some (FOutput [1] [] [1]).
Proof. reflexivity. Qed.

Print Assumptions C52_exactly_once_in_order.
Print Assumptions C52_complete_at_the_end.
Print Assumptions C52_header_only_for_retries.
Print Assumptions C52_finish_returns_the_rest.
Print Assumptions C52_peek_removes_nothing.
Print Assumptions C52_finish_does_not_panic_partial.
Print Assumptions C52_finish_after_close_refuted.
