(* What one who starts a queue, and one who uses it, can rely on, without the definitions of StartModel's programs. *)
From Verif Require Import Base OffloadModel PersisterModel AuthModel AuthSpec StartModel.
From Coq Require Import String.
Local Open Scope list_scope.

Section Spec.
Context {Ip Cron Tls Cert : Type}.
Notation options := (options Ip Cron). Notation host := (host Ip Cron Tls).

(* The contract of the operating system: one who binds gets a port that is free, and the one asked for unless that is 0. *)
Definition binds_honestly (bind : list N -> Ip -> N -> option N) : Prop :=
  forall used ip p p', bind used ip p = Some p' -> ~ In p' used /\ (p <> 0%N -> p' = p).

(* Who may come in, by the two options for tokens *)
Definition lets_in (o : options) (sent : list nat) : Prop :=
  match o_user_token o, o_admin_token o with
  | Some u, Some a => exists rest, sent = u ++ rest \/ sent = a ++ rest
  | _, _ => True
  end.

(* The TLS configuration that the two options for files name *)
Definition tls_asked (h : host) (o : options) (t : option Tls) : Prop :=
  match o_tls_cert o, o_tls_key o with
  | Some c, Some k => exists cert key, h_read h c = Some cert /\ h_read h k = Some key /\ t = h_tls h cert key /\ t <> None
  | _, _ => t = None
  end.

(* A directory is the one that was configured, or else a temporary one that is there *)
Definition dir_asked (configured : option string) (there : list string) (d : string) : Prop :=
  match configured with Some c => d = c | None => In d there end.

(* A port is the one asked for; 0 asks for any *)
Definition port_asked (asked got : N) : Prop := asked = 0%N \/ got = asked.

(* The address that a queue is known by *)
Definition public_ip (o : options) : Ip := match o_public_ip o with Some ip => ip | None => o_bind o end.

(* What a job offloads: the files that are not empty and were not read for that many hours *)
Definition offloads_after (hours : N) (c : offload_config) : Prop :=
  forall now size read, file_eligible c now size (Some read) = Some true <->
    (0 < size)%nat /\ (read + Z.of_N hours * 3600 <= now)%Z /\ (read <= now)%Z.
Definition job_asked (hours : N) (asked : option Cron) (job : option (Cron * offload_config)) : Prop :=
  match asked, job with
  | None, None => True
  | Some s, Some (s', c) => s' = s /\ offloads_after hours c
  | _, _ => False
  end.

(* A failure names something that could not be had. *)
Definition is_so (h : host) (o : options) (f : failure Ip) : Prop :=
  match f with
  | CannotRead p => (o_tls_cert o = Some p \/ o_tls_key o = Some p) /\ h_read h p = None
  | BadTls => exists c k cert key, o_tls_cert o = Some c /\ o_tls_key o = Some k /\
                h_read h c = Some cert /\ h_read h k = Some key /\ h_tls h cert key = None
  | NoTemporaryDirectory => (o_manifests_dir o = None \/ o_results_dir o = None) /\ (h_temp1 h = None \/ h_temp2 h = None)
  | NoRemote why => resolve (h_s3 h) (o_remote o) = inr why
  | BadSchedule => exists s, (o_manifests_cron o = Some s \/ o_results_cron o = Some s) /\ h_schedules h s = false
  | CannotBind (ip, p) => ip = o_bind o /\ In p [o_port o; o_negotiator_port o; o_work_port o] /\
                          exists used, h_bind h used ip p = None
  | Unreachable => False
  end.

(* How a client presents itself: the right token, and none if none is asked for *)
Definition shows_token (u a : option (list nat)) (k : client Ip Cert) : Prop :=
  match u, a with
  | Some u, Some a => token u /\ token a /\ (k_auth k = CToken u \/ k_auth k = CToken a)
  | _, _ => k_auth k = CNoAuth
  end.
End Spec.
