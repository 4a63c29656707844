(* What C85 says, without the functions of the model that compute it. *)
From Verif Require Import Base JsonModel JsonProofs JsonlModel AuthModel AuthSpec WireModel WireSpec CodecModel HealthModel.
From Coq Require Import String.
Local Open Scope list_scope.

(* Whom a server admits: without tokens those who send none, with tokens those who send one of them. *)
Definition admits (auth : server_auth) (token : client_auth) : Prop :=
  match auth, token with
  | SNoAuth, CNoAuth => True
  | STokens user admin, CToken t => t = user \/ t = admin
  | _, _ => False
  end.

(* Tokens are thirty letters or digits; an entity has sixteen bytes; a version is a short text. *)
Definition server_ok (auth : server_auth) : Prop := match auth with SNoAuth => True | STokens u a => AuthSpec.token u /\ AuthSpec.token a end.
Definition client_ok (c : client_auth) : Prop := match c with CNoAuth => True | CToken t => AuthSpec.token t end.
Definition entity_ok (e : list N * CodecModel.tag) : Prop :=
  List.length (fst e) = 16 /\ Forall (fun b => (b < 256)%N) (fst e) /\ snd e = LocalClient.
Definition place_ok (p : place) : Prop :=
  match p with Abq _ auth version => server_ok auth /\ List.length version <= 100 | _ => True end.

(* Bytes that begin with a framed JSON object that says healthy, of that version. *)
Definition says_healthy (gz_decode : bytes -> option bytes) (reply : bytes) (version : bytes) : Prop :=
  exists size body rest compressed members,
    reply = size ++ body ++ rest /\ List.length size = 4 /\
    read_size size = (List.length body, compressed) /\ parse gz_decode compressed body = Some (JObj members) /\
    In (text "healthy", JBool true) members /\ In (text "version", JStr version) members.

(* A conversation in which nothing breaks and nobody is cut short: it connects, the server reads the
   message to its end, and so does the caller with the answer. *)
Definition smooth (gz_decode : bytes -> option bytes) (l : link) : Prop :=
  l_connects l = true /\ l_sends l = true /\ l_cut l = None /\
  (forall e, In e (l_events l) -> e <> Break /\ e <> Expire /\ e <> Cancel) /\
  (exists rest, l_events l = Call :: rest /\ 300 <= List.length (filter (fun e => match e with Bytes _ => true | _ => false end) rest)) /\
  (forall t, In t (l_turns l) -> t <> Broken /\ t <> Elapsed) /\ 700 <= answers (l_turns l).

(* The service a line is about. *)
Definition about (x : line) : service * address := match x with HealthyLine s a _ => (s, a) | UnhealthyLine s a => (s, a) end.
Definition is_healthy (x : line) : Prop := match x with HealthyLine _ _ _ => True | UnhealthyLine _ _ => False end.

(* What the command sends to a service: its token, if it has one, and the request. *)
Definition request (gz_encode : bytes -> bytes) (token : client_auth) (s : service) (e : list N * CodecModel.tag) : bytes :=
  match token with CNoAuth => [] | CToken t => t end ++ frame gz_encode true (c_enc (c_ask s) (e, tt)).

(* The conversation is over: the other side closed the connection, and the caller gets to the end of
   what was sent. *)
Definition concludes (gz_encode : bytes -> bytes) (gz_decode : bytes -> option bytes) (p : place) (l : link) (request : bytes) : Prop :=
  match conversation gz_encode gz_decode p l request with
  | Some (reply, closed) => closed = true /\ List.length reply < answers (l_turns l)
  | None => True
  end.
