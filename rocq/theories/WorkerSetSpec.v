(* What a worker set should be: a finite map from tags to the latest pair. *)
From Verif Require Import Base WorkerSetModel.

Section Spec.
Context {A : Type}.

(* The pair stored for a tag. *)
Definition entry (s : wset A) (t : tag) : option (entity * A) :=
  find (fun p => tag_eqb (en_tag (fst p)) t) s.

Definition op_tag (o : wop A) : tag :=
  match o with WInsert e _ => en_tag e | WInsertIfMissing e _ => en_tag e end.

(* What a sequence of operations leaves for a tag: the last plain insertion of the
   tag wins; an insert-if-missing counts only when nothing was there. *)
Definition expected (t : tag) (ops : list (wop A)) : option (entity * A) :=
  fold_left (fun acc o =>
    match o with
    | WInsert e v => if tag_eqb (en_tag e) t then Some (e, v) else acc
    | WInsertIfMissing e v =>
        if tag_eqb (en_tag e) t then match acc with Some p => Some p | None => Some (e, v) end
        else acc
    end) ops None.

Definition tags (s : wset A) : list tag := map (fun p => en_tag (fst p)) s.
End Spec.
