(* Model of Manifest::flatten_manifest,
   crates/abq_utils/src/net_protocol/runners.rs:338-391, and of its use for an
   arriving manifest, crates/abq_queue/src/queue.rs:2075-2120. *)
From Verif Require Import Base.

Section Flatten.
(* test ids, metadata maps, tags and group names are opaque *)
Context {TestId Meta Tags Name : Type}.

(* runners/v0_2.rs:31-36 *)
Record test := { t_id : TestId; t_tags : Tags; t_meta : Meta }.
(* runners/v0_2.rs:38-53 (TestOrGroup and Group) *)
Inductive node :=
| Test (t : test)
| Group (name : Name) (members : list node) (tags : Tags) (meta : Meta).
(* runners/v0_2.rs:55-59 *)
Record manifest := { m_members : list node; m_init_meta : Meta }.

(* TestSpec with its TestCase (v0_2.rs:99-104, runners.rs:376-388).  WorkId::new() and
   GroupId::new() give random identifiers that never repeat: they are drawn from a
   counter. *)
Record spec := { s_work_id : nat; s_id : TestId; s_meta : Meta; s_focus : option (list TestId) }.

(* runners.rs:371-391; the next work id is the number of collected tests *)
Definition add_test_to_collected (t : test) (collected : list (spec * nat)) (group_id : nat) : list (spec * nat) :=
  collected ++ [({| s_work_id := length collected; s_id := t_id t; s_meta := t_meta t; s_focus := None |}, group_id)].

(* runners.rs:354-363: the loop over the stack.  The end of the list is the top of the
   stack, as in a Vec; [fuel] bounds the number of turns (None: not enough). *)
Fixpoint drain (fuel : nat) (queue : list node) (collected : list (spec * nat)) (group_id : nat)
  : option (list (spec * nat)) :=
  match fuel with
  | 0 => None
  | S fuel' =>
      match rev queue with
      | [] => Some collected
      | Test t :: below => drain fuel' (rev below) (add_test_to_collected t collected group_id) group_id
      | Group _ members _ _ :: below => drain fuel' (rev below ++ rev members) collected group_id
      end
  end.

(* runners.rs:346-366; group ids count the top-level members; the stack is empty between them *)
Fixpoint flatten_from (fuel group_id : nat) (members : list node) (collected : list (spec * nat))
  : option (list (spec * nat)) :=
  match members with
  | [] => Some collected
  | Test t :: rest => flatten_from fuel (S group_id) rest (add_test_to_collected t collected group_id)
  | Group _ ms _ _ :: rest =>
      match drain fuel (rev ms) collected group_id with
      | None => None
      | Some collected' => flatten_from fuel (S group_id) rest collected'
      end
  end.

(* runners.rs:340-368 *)
Definition flatten_manifest (fuel : nat) (members : list node) : option (list (spec * nat)) :=
  flatten_from fuel 0 members [].

(* queue.rs:2078-2115: what is done with an arriving manifest *)
Inductive arrival := EmptyManifest | StartRun (tests : list (spec * nat)) (init_meta : Meta).
Definition handle_manifest (fuel : nat) (m : manifest) : option arrival :=
  match flatten_manifest fuel (m_members m) with
  | None => None
  | Some [] => Some EmptyManifest
  | Some l => Some (StartRun l (m_init_meta m))
  end.
End Flatten.
Arguments node : clear implicits. Arguments test : clear implicits. Arguments manifest : clear implicits.
Arguments spec : clear implicits. Arguments arrival : clear implicits.
