(* What C88 says, without the functions of the model that compute it. *)
From Coq Require Import String NArith ZArith.
From Verif Require Import Base JsonModel JsonProofs JsonlModel AuthModel AuthSpec WireModel WireSpec CodecModel CodecSpec ManifestCodecModel
  HealthSpec ProtocolModel.
Local Open Scope list_scope.

(* What is asked of the library for IPv6 socket addresses: it reads what it wrote, which begins with a bracket. *)
Definition addr6_ok {V} (show6 : V -> bytes) (parse6 : bytes -> option V) : Prop :=
  (forall v, parse6 (show6 v) = Some v) /\ (forall v, exists t, show6 v = 91 :: t).

(* Values that the types of the code have. *)
Definition an_address {V} (a : socket_addr V) : Prop :=
  match a with V4 a b c d port => (a < 256 /\ b < 256 /\ c < 256 /\ d < 256 /\ port < 65536)%N | V6 _ => True end.
Definition an_exit_code (z : Z) : Prop := (-2147483648 <= z <= 2147483647)%Z.
Definition a_u64 (n : N) : Prop := (n < 2 ^ 64)%N.
Definition an_invocation (i : invoke_work) : Prop :=
  (0 < iw_batch_size i)%N /\ a_u64 (iw_batch_size i) /\ octets (iw_command_hash i) /\ List.length (iw_command_hash i) = 32.

(* A manifest and results that a request can hold. *)
Definition queue_fits (m : queue_message) : Prop :=
  match m with
  | QManifestResult _ x => c_ok c_manifest_result x
  | QWorkerResult _ l => Forall (c_ok c_associated) l
  | _ => True
  end.
Definition work_fits (m : work_message) : Prop := match m with WRetryManifestPartition _ e => an_entity e | _ => True end.
Definition negotiator_fits (m : negotiator_message) : Prop := match m with NHealthCheck => True | NWantsToAttach i => an_invocation i end.
(* ... and how deep they are. *)
Definition queue_deep (d : nat) (m : queue_message) : Prop :=
  match m with
  | QManifestResult _ x => nesting (c_enc c_manifest_result x) <= d
  | QWorkerResult _ l => Forall (fun a => nesting (c_enc c_associated a) <= d) l
  | _ => True
  end.

Definition attach_fits {V} (x : attach_response (V := V)) : Prop :=
  match x with
  | RunAlreadyCompleted z => an_exit_code z
  | ExecutionContext (work, (results, _)) => an_address work /\ an_address results
  | _ => True
  end.
Definition a_runner_tag (t : CodecModel.tag) : Prop :=
  match t with Runner r => (fst r < 2 ^ 32)%N /\ (snd r < 2 ^ 32)%N | _ => True end.

Section Wire.
Context (gz_encode : bytes -> bytes) (gz_decode : bytes -> option bytes).

(* The bytes of a message: four for its size, and itself. *)
Definition short {A} (c : codec A) (a : A) : Prop := (Z.of_nat (List.length (frame gz_encode true (c_enc c a))) < 2 ^ 31)%Z.

(* Reading goes on until [n] times some bytes came, and is not cut short. *)
Definition reads_on (n : nat) (es : list event) : Prop :=
  (forall e, In e es -> e <> Break /\ e <> Expire /\ e <> Cancel) /\
  exists rest, es = Call :: rest /\ n <= List.length (filter (fun e => match e with Bytes _ => true | _ => false end) rest).

(* A server that admits a client takes from it the message it sent, and no other, however its bytes
   come; and it does take it if its reading goes on. *)
Definition understood {A} (c : codec A) (a : A) : Prop :=
  forall auth token es, client_ok token -> admits auth token ->
    (undisturbed es -> no_cancel_at_header gz_decode false (connect (frame gz_encode true (c_enc c a))) es ->
       serves gz_decode c auth (says gz_encode c token a) es = StillReading \/
       serves gz_decode c auth (says gz_encode c token a) es = Takes a) /\
    (reads_on (List.length (frame gz_encode true (c_enc c a))) es -> serves gz_decode c auth (says gz_encode c token a) es = Takes a).

(* The same of an answer, for both ways of reading. *)
Definition heard_as_said {A} (c : codec A) (a : A) : Prop :=
  let sent := frame gz_encode true (c_enc c a) in
  (forall es, undisturbed es -> no_cancel_at_header gz_decode false (connect sent) es ->
     hears gz_decode c sent es = StillReading \/ hears gz_decode c sent es = Takes a) /\
  (forall es, reads_on (List.length sent) es -> hears gz_decode c sent es = Takes a) /\
  (forall closed turns, (forall t, In t turns -> t <> Broken /\ t <> Elapsed) -> List.length sent <= WireSpec.answers turns ->
     hears_blocking gz_decode c closed sent turns = Takes a).
End Wire.

(* What a server with tokens asks to see first. *)
Definition showed (auth : server_auth) (sent : bytes) : Prop :=
  match auth with
  | SNoAuth => True
  | STokens user admin => exists rest, sent = user ++ rest \/ sent = admin ++ rest
  end.
