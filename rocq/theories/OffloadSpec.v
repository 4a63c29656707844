(* When a file may be offloaded. *)
From Verif Require Import Base OffloadModel.
Local Open Scope Z_scope.

(* Unused for at least the configured time, by a clock that is not behind the access. *)
Definition unused_for (c : offload_config) (now : Z) (accessed : option Z) : Prop :=
  exists d t, c = After d /\ accessed = Some t /\ t <= now /\ t + d <= now.
