(* What C46 says. *)
From Verif Require Import Base StatusModel RwxModel.

Section Spec.
Context {P : Type}.

(* the number of tests in a list that are in a given state *)
Definition number {A} (f : A -> bool) (l : list A) : nat := length (filter f l).

Inductive kind := KCanceled | KFailed | KPended | KQuarantined | KSkipped | KSuccessful | KTimedOut | KTodo.
Definition kind_of (a : attempt_status) : kind :=
  match a with
  | ACanceled => KCanceled | AFailed _ _ _ => KFailed | APended _ => KPended | ASkipped _ => KSkipped
  | ASuccessful => KSuccessful | ATimedOut => KTimedOut | ATodo _ => KTodo | AQuarantined _ => KQuarantined
  end.
Definition kind_eqb (a b : kind) : bool :=
  match a, b with
  | KCanceled, KCanceled | KFailed, KFailed | KPended, KPended | KQuarantined, KQuarantined | KSkipped, KSkipped
  | KSuccessful, KSuccessful | KTimedOut, KTimedOut | KTodo, KTodo => true
  | _, _ => false
  end.
Definition is_kind (k : kind) (t : test P) : bool := kind_eqb (kind_of (at_status (te_attempt t))) k.
Definition bad (k : kind) : bool := match k with KCanceled | KFailed | KTimedOut => true | _ => false end.

(* all the attempts of a test in the report, oldest first *)
Definition attempts (t : test P) : list (attempt P) := opt_list (te_past t) ++ [te_attempt t].

(* an attempt shows a result of a native runner *)
Definition shows (a : attempt P) (src : nat * nat) (s : spec P) : Prop :=
  at_rest a = sp_rest s /\ at_src a = src /\
  match sp_status s with
  | Success => at_status a = ASuccessful
  | Failure | Error => at_status a = AFailed (sp_exc s) (sp_output s) (sp_bt s)
  | Pending => at_status a = APended (sp_output s)
  | Skipped => at_status a = ASkipped (sp_output s)
  | Todo => at_status a = ATodo (sp_output s)
  | TimedOut => at_status a = ATimedOut
  | PrivateNativeRunnerError => False
  end.

(* what a result reports on its test, oldest attempt first *)
Definition timeline (r : tresult P) : list ((nat * nat) * spec P) :=
  map (pair (tr_src r)) (opt_list (sp_past (tr_spec r)) ++ [tr_spec r]).

Definition of_test (i : nat) (rs : list (tresult P)) : list (tresult P) :=
  filter (fun r => Nat.eqb (sp_id (tr_spec r)) i) rs.

(* a result of a test (not an error of the native runner itself) whose past
   attempts are such results without past attempts of their own *)
Definition material (s : spec P) : Prop := sp_status s <> PrivateNativeRunnerError.
Definition plain (r : tresult P) : Prop :=
  material (tr_spec r) /\ forall s, In s (opt_list (sp_past (tr_spec r))) -> material s /\ opt_list (sp_past s) = [].

(* the report has a place for the test: it did not fail outside of any file *)
Definition placed (r : tresult P) : Prop :=
  sp_loc (tr_spec r) <> None \/ (sp_status (tr_spec r) <> Failure /\ sp_status (tr_spec r) <> Error).
End Spec.
