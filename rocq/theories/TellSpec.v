(* What is said about requests to the hosted service (C90). *)
From Coq Require Import String Ascii.
From Verif Require Import Base JsonModel PoolModel TellModel.
Import ListNotations.
Local Open Scope list_scope.

(* What the first runner, in the order of their numbers, knows of its native runner, among those that know something. *)
Fixpoint first_known (rs : list (runner_exit spec)) : option spec :=
  match rs with
  | [] => None
  | ROk _ _ _ _ (Some s) :: _ | RErr _ _ (Some s) :: _ => Some s
  | _ :: rs' => first_known rs'
  end.

(* ---- reading a request, as a service does ---- *)
Definition same_text (a b : list nat) : bool := if list_eq_dec Nat.eq_dec a b then true else false.

(* the pieces of a text between occurrences of c *)
Fixpoint split_at (c : nat) (t : list nat) : list (list nat) :=
  match t with
  | [] => [[]]
  | b :: t' => if b =? c then [] :: split_at c t'
               else match split_at c t' with [] => [[b]] | p :: ps => (b :: p) :: ps end
  end.

(* the segments of a path *)
Definition segments (p : list nat) : list (list nat) :=
  match p with
  | 47 :: [] => []
  | 47 :: t => split_at 47 t
  | t => split_at 47 t
  end.

(* application/x-www-form-urlencoded: + is a space, %XX is a byte *)
Definition hex_value (b : nat) : option nat :=
  if (48 <=? b) && (b <=? 57) then Some (b - 48)
  else if (65 <=? b) && (b <=? 70) then Some (b - 55)
  else if (97 <=? b) && (b <=? 102) then Some (b - 87)
  else None.
Fixpoint form_decode (t : list nat) : list nat :=
  match t with
  | [] => []
  | b :: t' =>
      if b =? 43 then 32 :: form_decode t'
      else if b =? 37 then
        match t' with
        | h :: l :: t'' =>
            match hex_value h, hex_value l with
            | Some x, Some y => 16 * x + y :: form_decode t''
            | _, _ => b :: form_decode t'
            end
        | _ => b :: form_decode t'
        end
      else b :: form_decode t'
  end.
(* one piece of a query: up to the first = is the name *)
Fixpoint cut (c : nat) (t : list nat) : list nat * list nat :=
  match t with
  | [] => ([], [])
  | b :: t' => if b =? c then ([], t') else let '(x, y) := cut c t' in (b :: x, y)
  end.
Definition pair_of (piece : list nat) : list nat * list nat :=
  let '(k, v) := cut 61 piece in (form_decode k, form_decode v).
Definition pairs_of (q : option (list nat)) : list (list nat * list nat) :=
  match q with
  | None => []
  | Some t => map pair_of (filter (fun p => negb (same_text p [])) (split_at 38 t))
  end.

(* the header of a name *)
Definition header (k : string) (q : request) : option (list nat) :=
  option_map snd (find (fun h => same_text (fst h) (lit k)) (q_headers q)).

(* what the body of a request says: a run id, and the name, version and host of a native runner, and nothing else *)
Definition says (q : request) : option (list nat * (list nat * list nat * list nat)) :=
  match q_body q with
  | None => None
  | Some b =>
      match read_json b with
      | Some (JObj [(k1, JStr r); (k2, JObj [(k3, JStr n); (k4, JStr v); (k5, JStr h)])]) =>
          if same_text k1 (lit "run_id") && same_text k2 (lit "native_runner_specification") &&
             same_text k3 (lit "name") && same_text k4 (lit "version") && same_text k5 (lit "host")
          then Some (r, (n, v, h)) else None
      | _ => None
      end
  end.

(* texts that are bytes *)
Definition is_bytes (t : list nat) : Prop := Forall (fun b => b < 256) t.

(* The same end of a runner, without what it knows of its native runner. *)
Definition forget (r : runner_exit spec) : runner_exit unit :=
  match r with ROk c m f p _ => ROk c m f p None | RErr e o _ => RErr e o None end.

(* a text that the value of a header can be: no control character but the tab, and no DEL *)
Definition can_be_sent (t : list nat) : Prop := forall b, In b t -> b = 9 \/ (32 <= b /\ b <> 127).
