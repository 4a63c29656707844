(* More of C82: how the numbers of the summary are emphasised. *)
From Verif Require Import Base SummaryModel SummarySpec SummaryProofs.
From Coq Require Import NArith String.
Open Scope N_scope.

(* a text is written in a style somewhere in what is shown *)
Definition written_in (st : colour) (x : text) (l : list (N * option colour)) : Prop :=
  exists before behind, l = before ++ map (fun a => (a, Some st)) x ++ behind.

(* The number of failures is red and bold if there are any and plain otherwise; the number of retried tests is yellow and bold; whatever
   has a colour is bold. *)
Theorem C82_emphasis : forall hundredths s, let p := fst (painted None (format_short_suite_summary hundredths s)) in
  written_in {| bold := negb (num_failing s =? 0); fg_of := if num_failing s =? 0 then None else Some Red |} (dec (num_failing s) ++ t " failures") p /\
  (0 < num_retried s -> written_in {| bold := true; fg_of := Some Yellow |} (dec (num_retried s) ++ t " retried") p) /\
  written_in {| bold := true; fg_of := Some Green |} (dec (num_tests s) ++ t " tests") p /\
  (forall a c, In (a, Some c) p -> fg_of c <> None -> bold c = true).
Proof.
  intros hundredths s p. unfold p. destruct (painted_all hundredths s) as (A & B & C & D & E & F & G & H & P & -> & _ & _ & ED). rewrite P. cbn [fst]. clear p P.
  assert (FS : {| bold := negb (num_failing s =? 0); fg_of := if num_failing s =? 0 then None else Some Red |} = failing_spec (num_failing s)).
  { unfold failing_spec. destruct (N.eqb_spec (num_failing s) 0) as [->|N0]; [reflexivity|]. destruct (N.ltb_spec 0 (num_failing s)); [reflexivity|lia]. }
  rewrite FS. change {| bold := true; fg_of := Some Yellow |} with yellow_bold_spec. change {| bold := true; fg_of := Some Green |} with green_bold_spec.
  split; [|split; [|split]].
  - unfold written_in. set (X := map _ (dec (num_failing s) ++ t " failures")).
    exists (map (fun a => (a, None)) A ++ map (fun a => (a, Some bold_spec)) B ++ map (fun a => (a, None)) C ++ map (fun a => (a, Some green_bold_spec)) D ++ map (fun a => (a, None)) E).
    eexists. rewrite <- !app_assoc. reflexivity.
  - intros L. apply N.ltb_lt in L. rewrite L. unfold written_in.
    set (Y := map _ (dec (num_retried s) ++ t " retried")). set (X := map _ (dec (num_failing s) ++ t " failures")).
    exists (map (fun a => (a, None)) A ++ map (fun a => (a, Some bold_spec)) B ++ map (fun a => (a, None)) C ++ map (fun a => (a, Some green_bold_spec)) D ++ map (fun a => (a, None)) E ++ X ++ map (fun a => (a, None)) F), (map (fun a => (a, None)) H).
    rewrite app_nil_r, <- !app_assoc. reflexivity.
  - rewrite <- ED. unfold written_in.
    exists (map (fun a => (a, None)) A ++ map (fun a => (a, Some bold_spec)) B ++ map (fun a => (a, None)) C). eexists. rewrite <- !app_assoc. reflexivity.
  - assert (M : forall (a : N) (c : colour) (d : option colour) (x : text), In (a, Some c) (map (fun a => (a, d)) x) -> d = Some c).
    { intros a c d x I. apply in_map_iff in I as (b & Q & _). congruence. }
    intros a c I N0. rewrite !in_app_iff in I.
    repeat match goal with I : _ \/ _ |- _ => destruct I as [I|I] end; try (apply M in I; first [discriminate I|injection I as <-; try reflexivity; try (cbn in N0; congruence)]).
    + revert N0. unfold failing_spec. destruct (0 <? num_failing s); [reflexivity|cbn; congruence].
    + destruct (0 <? num_retried s); [|destruct I]. rewrite app_nil_r, in_app_iff in I. destruct I as [I|I]; apply M in I; [discriminate|]. injection I as <-. reflexivity.
Qed.
Print Assumptions C82_emphasis.

Example C82_emphasis_example : let s := {| wall_time := 0; test_time := 0; num_tests := 3; num_failing := 1; num_retried := 1; runner_summaries := []; grouped_by := Runner |} in
  0 < num_retried s /\ num_failing s <> 0.
Proof. split; [reflexivity|discriminate]. Qed.
