(* Vocabulary for the file-system persister of results. *)
From Verif Require Import Base OffloadModel ResultsFsModel.

(* The lines dumped to run r with success, in order, each with its line break. *)
Fixpoint dumped (r : run_id) (l : list answer) : bytes :=
  match l with
  | [] => []
  | ADumped r' line :: l' => (if Nat.eqb r' r then line ++ [newline] else []) ++ dumped r l'
  | _ :: l' => dumped r l'
  end.

(* What a request for the results of r returns when the remote works. *)
Definition reads noop st (r : run_id) (b : bytes) : Prop :=
  fs_log (step noop st (FRead r LoadOk)) = fs_log st ++ [ARead r b].

(* The failures that are excluded for run r: a restart, a partial write, a failure
   of the sync after truncation, and offloading without a remote. *)
Definition clean noop (r : run_id) (ev : event) : Prop :=
  match ev with
  | FRestart => False
  | FDump r' _ _ (WriteFail _) => r' <> r
  | FOffload r' _ _ _ OffSecondSyncFail => r' <> r
  | FOffload r' _ _ _ OffOk => r' = r -> noop = false
  | _ => True
  end.
